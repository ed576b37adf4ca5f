(** What docs/MAPL_SPEC_v2.md says about rules that match everything, about types, lists and verbs. *)
From Coq Require Import List String Ascii Bool Arith ZArith.
From Verif Require Import Base GoFloat Types Spec_Regex Spec_Glob Spec_Match Spec_Copy.
Import ListNotations.
Open Scope string_scope.

(** docs/MAPL_SPEC_v2.md:110-126, the rule [default_allow]: both sides, the protocol and the operation are [*] *)
Record catch_all (L : Lib) (r : rule L) : Prop := {
  ca_new : underived L r;
  ca_sender : ru_sender_name r = "*" /\ In (ru_sender_type r) ["*"; "workload"];
  ca_receiver : ru_receiver_name r = "*" /\ In (ru_receiver_type r) ["*"; "workload"];
  ca_protocol : ru_protocol r = "*";
  ca_operation : ru_operation r = "*";
  ca_resource : pattern_ok (ru_resource_name r);
  ca_tree : ru_tree r = None
}.
(** the names of both services are on one line *)
Definition one_line (s : string) : Prop := all_chars (fun c => c <> newline) s.
Definition plainly_named (m : message) : Prop := one_line (m_source_service m) /\ one_line (m_dest_service m).

(** docs/MAPL_SPEC_v2.md:83-84: the verbs *)
Definition documented_verbs : list (string * list string) :=
  [("read", ["GET"; "HEAD"; "OPTIONS"; "TRACE"; "CONSUME"]); ("write", ["POST"; "PUT"; "DELETE"; "PRODUCE"])].
(** docs/MAPL_SPEC_v2.md:30-52: the type of the examples *)
Definition documented_type : string := "service".
