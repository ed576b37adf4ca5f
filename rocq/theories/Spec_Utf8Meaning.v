(** What a check returns for rules and messages whose texts are UTF-8. *)
From Coq Require Import List String Ascii Bool Arith ZArith.
From Verif Require Import Base GoStr GoFloat Types Spec_Tree Spec_Regex Spec_Glob Spec_Match Spec_Decision Spec_Leaf Spec_Validate Spec_Load Spec_Grammar Spec_Copy Spec_Raw Spec_Meaning Spec_Utf8.
Import ListNotations.
Open Scope string_scope.

Section WithLib.
Variable L : Lib.
Variable p : predef.

(** ** Rules *)
Definition side_accepts8 (type name : string) (services : list (string * string)) (address : string) (addr : ip) : Prop :=
  exists name', replaced_name p name name' /\
    ((exists text, In (type, text) services /\ name_accepts8 name' text) \/
     (type = "subnet" /\ exists items, comma_items name' items /\ Exists (fun item => subnet_item L item address addr) items)).
Definition sender_accepts8 (r : rule L) (m : message) : Prop :=
  side_accepts8 (ru_sender_type r) (ru_sender_name r) [("*", m_source_service m); ("workload", m_source_service m)] (m_source_ip m) (m_source_netip m).
Definition receiver_accepts8 (r : rule L) (m : message) : Prop :=
  side_accepts8 (ru_receiver_type r) (ru_receiver_name r)
    [("*", m_dest_service m); ("workload", m_dest_service m); ("hostname", m_host m)] (m_dest_ip m) (m_dest_netip m).
Definition resource_accepts8 (r : rule L) (m : message) : Prop :=
  (ru_protocol r = "tcp" /\ list_accepts8 (ru_resource_name r) (m_dest_port m))
  \/ ru_protocol r = "*"
  \/ (ru_protocol r <> "tcp" /\ ru_protocol r <> "*" /\ same_folded (m_protocol m) (ru_protocol r) /\
      (ru_resource_type r = "*" \/ m_context_type m = ru_resource_type r) /\ list_accepts8 (ru_resource_name r) (m_path m)).
Definition applies8 (r : rule L) (m : message) : Prop :=
  sender_accepts8 r m /\ receiver_accepts8 r m /\ operation_accepts8 (ru_operation r) (m_method m) /\ resource_accepts8 r m /\
  match ru_tree r with None => True | Some n => means L p n m end.
(** the decision of one rule; 0 is DEFAULT *)
Definition verdict8 (r : rule L) (m : message) (d : nat) : Prop :=
  (applies8 r m /\ decision_word (ru_decision r) d) \/
  ((~ applies8 r m \/ forall d', ~ decision_word (ru_decision r) d') /\ d = 0).

(** rules and messages the meaning covers: names without characters special to regular expressions, trees as loaded that
    are copied faithfully, and conditions that say something about the message *)
Definition side_covered8 (type name : string) : Prop := type = "subnet" \/ forall name', replaced_name p name name' -> pattern8 name'.
Record rule_covered8 (r : rule L) (m : message) : Prop := {
  rc8_new : underived L r;
  rc8_sender : side_covered8 (ru_sender_type r) (ru_sender_name r);
  rc8_receiver : side_covered8 (ru_receiver_type r) (ru_receiver_name r);
  rc8_operation : pattern8 (ru_operation r);
  rc8_resource : pattern8 (ru_resource_name r) /\ (ascii_text (ru_protocol r) \/ ascii_text (m_protocol m));
  rc8_tree : forall n, ru_tree r = Some n -> loaded_tree L n /\ covered L p n m
}.
Definition utf8_message (m : message) : Prop :=
  Forall utf8 [m_source_service m; m_dest_service m; m_host m; m_method m; m_path m; m_dest_port m].
End WithLib.
