(** Specification of the texts that GetRuleStrings shows for the parts of a rule. *)
From Coq Require Import List String Ascii Bool Arith.
From Verif Require Import Base GoStr Types Strings Spec_Tree Spec_Strings.
Import ListNotations.
Open Scope string_scope.

(** a field that is shown as "default" when it is empty *)
Inductive shown_or_default (field : string) : string -> Prop :=
| sd_default : field = "" -> shown_or_default field "default"
| sd_field : field <> "" -> shown_or_default field field.
(** type and name of a sender or receiver *)
Inductive shown_party (type name : string) : string -> Prop :=
| sp_untyped : type = "" -> shown_party type name ("{default type}::" ++ name)
| sp_typed : type <> "" -> shown_party type name (type ++ ":" ++ name).
(** type and name of a resource; the name is not shown without a type *)
Inductive shown_resource (type name : string) : string -> Prop :=
| sr_untyped : type = "" -> shown_resource type name "default:default"
| sr_typed : type <> "" -> shown_resource type name (type ++ ":" ++ name).

Section WithLib.
Variable L : Lib.

Record shows_rule (r : rule L) (s : rule_strings) : Prop := {
  sh_sender : shown_party (ru_sender_type r) (ru_sender_name r) (st_sender s);
  sh_receiver : shown_party (ru_receiver_type r) (ru_receiver_name r) (st_receiver s);
  sh_protocol : shown_or_default (ru_protocol r) (st_protocol s);
  sh_resource : shown_resource (ru_resource_type r) (ru_resource_name r) (st_resource s);
  sh_operation : shown_or_default (ru_operation r) (st_operation s);
  sh_decision : shown_or_default (ru_decision r) (st_decision s);
  sh_conditions : exists n, ru_tree r = Some n /\ node_string L n = Some (st_conditions s)
}.

(** ** Rules that are shown alike *)
Definition same_or_default (x y : string) : Prop := x = y \/ (In x [""; "default"] /\ In y [""; "default"]).
Definition same_resource (t1 n1 t2 n2 : string) : Prop :=
  (t1 = t2 /\ n1 = n2) \/ ((t1 = "" \/ t1 = "default" /\ n1 = "default") /\ (t2 = "" \/ t2 = "default" /\ n2 = "default")).
Definition shown_alike (r1 r2 : rule L) : Prop :=
  ru_sender_type r1 = ru_sender_type r2 /\ ru_sender_name r1 = ru_sender_name r2 /\
  ru_receiver_type r1 = ru_receiver_type r2 /\ ru_receiver_name r1 = ru_receiver_name r2 /\
  same_or_default (ru_protocol r1) (ru_protocol r2) /\
  same_resource (ru_resource_type r1) (ru_resource_name r1) (ru_resource_type r2) (ru_resource_name r2) /\
  same_or_default (ru_operation r1) (ru_operation r2) /\ same_or_default (ru_decision r1) (ru_decision r2) /\
  alike_conditions L (ru_tree r1) (ru_tree r2).
(** types without the separator, and not the text shown for a missing type *)
Definition plain_types (r : rule L) : Prop :=
  Forall (fun t => avoids [":"]%char t /\ t <> "{default type}") [ru_sender_type r; ru_receiver_type r; ru_resource_type r].
End WithLib.
