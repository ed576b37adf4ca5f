(** What of a message the rules as written read: two messages that agree on it are told apart by none of the rules. *)
From Coq Require Import List String Ascii Bool Arith ZArith.
From Verif Require Import Base GoStr Types Spec_Tree Spec_Glob Spec_Leaf Spec_Validate.
Import ListNotations.
Open Scope string_scope.

(** the documents, and the current elements of ANY and ALL *)
Definition same_documents (m m' : message) : Prop :=
  m_json m = m_json m' /\ m_raw m = m_raw m' /\ m_json_rel m = m_json_rel m' /\ m_raw_rel m = m_raw_rel m'.

(** attributes that are one field of the message *)
Definition text_attributes : list (string * (message -> string)) :=
  [("requestUseragent", m_useragent); ("encryptionType", m_enc_type); ("domain", m_domain);
   ("$sender.namespace", m_source_namespace); ("$sender.cluster", m_source_cluster);
   ("$receiver.namespace", m_dest_namespace); ("$receiver.cluster", m_dest_cluster)].
Definition receiver_attributes : list (string * (message -> string)) :=
  [("$receiver.namespace", m_dest_namespace); ("$receiver.cluster", m_dest_cluster)].

Section WithLib.
Variable L : Lib.
Variable p : predef.

Record agree_on_condition (att method value : string) (m m' : message) : Prop := {
  ac_size : att = "payloadSize" -> m_size m = m_size m';
  ac_hours : att = "utcHoursFromMidnight" -> m_t_hours m = m_t_hours m';
  ac_version : att = "encryptionVersion" -> m_enc_version m = m_enc_version m';
  ac_text : forall field, In (att, field) text_attributes -> field m = field m';
  ac_sender_label : forall key, att = sender_label key -> assoc key (m_source_labels m) = assoc key (m_source_labels m');
  ac_receiver_label : forall key, att = receiver_label key -> assoc key (m_dest_labels m) = assoc key (m_dest_labels m');
  (** values that name an attribute of the receiver *)
  ac_value : forall v field, starts "$sender." att -> replaced p method value v -> In (v, field) receiver_attributes -> field m = field m';
  ac_value_label : forall key, starts "senderLabel[" att -> replaced p method value (receiver_label key) ->
    assoc key (m_dest_labels m) = assoc key (m_dest_labels m');
  ac_path : starts "jsonpath:" att -> same_documents m m'
}.

Fixpoint agree_on_tree (n : node L) (m m' : message) : Prop :=
  match n with
  | NCond c => agree_on_condition (c_attr c) (c_method c) (c_value c) m m'
  | NNot n => agree_on_tree n m m'
  | NAnd ns | NOr ns => fold_right (fun n P => agree_on_tree n m m' /\ P) True ns
  | NQuant _ _ n => same_documents m m' /\ agree_on_tree n m m'
  | NTrue | NFalse | NNil => True
  end.

Record agree_on_rule (r : rule L) (m m' : message) : Prop := {
  ar_sender : In (ru_sender_type r) ["*"; "workload"] -> m_source_service m = m_source_service m';
  ar_sender_subnet : ru_sender_type r = "subnet" -> m_source_ip m = m_source_ip m' /\ m_source_netip m = m_source_netip m';
  ar_receiver : In (ru_receiver_type r) ["*"; "workload"] -> m_dest_service m = m_dest_service m';
  ar_receiver_host : ru_receiver_type r = "hostname" -> m_host m = m_host m';
  ar_receiver_subnet : ru_receiver_type r = "subnet" -> m_dest_ip m = m_dest_ip m' /\ m_dest_netip m = m_dest_netip m';
  ar_operation : m_method m = m_method m';
  ar_port : ru_protocol r = "tcp" -> m_dest_port m = m_dest_port m';
  ar_protocol : ru_protocol r <> "tcp" -> ru_protocol r <> "*" -> m_protocol m = m_protocol m' /\ m_path m = m_path m';
  ar_resource : ru_protocol r <> "tcp" -> ru_protocol r <> "*" -> ru_resource_type r <> "*" -> m_context_type m = m_context_type m';
  ar_tree : forall n, ru_tree r = Some n -> agree_on_tree n m m'
}.
End WithLib.

(** fields that no rule reads *)
Record agree_but_for_annotations (m m' : message) : Prop := {
  an_documents : same_documents m m';
  an_addresses : (m_source_ip m, m_source_netip m, m_dest_ip m, m_dest_netip m) = (m_source_ip m', m_source_netip m', m_dest_ip m', m_dest_netip m');
  an_services : (m_source_service m, m_dest_service m, m_host m) = (m_source_service m', m_dest_service m', m_host m');
  an_places : (m_source_namespace m, m_source_cluster m, m_dest_namespace m, m_dest_cluster m) = (m_source_namespace m', m_source_cluster m', m_dest_namespace m', m_dest_cluster m');
  an_request : (m_method m, m_path m, m_protocol m, m_context_type m, m_dest_port m) = (m_method m', m_path m', m_protocol m', m_context_type m', m_dest_port m');
  an_details : (m_size m, m_useragent m, m_domain m, m_enc_type m, m_enc_version m, m_t_hours m) = (m_size m', m_useragent m', m_domain m', m_enc_type m', m_enc_version m', m_t_hours m');
  an_labels : m_source_labels m = m_source_labels m' /\ m_dest_labels m = m_dest_labels m'
}.
