(** The meaning of rules as they are written: conditions, trees and whole rules, without reference to the
    preparation and evaluation by the engine. *)
From Coq Require Import List String Ascii Bool Arith ZArith.
From Verif Require Import Base GoStr GoFloat Types Spec_Tree Spec_Regex Spec_Glob Spec_Match Spec_Decision Spec_Leaf Spec_Validate Spec_Load Spec_Grammar Spec_Copy Spec_Raw.
Import ListNotations.
Open Scope string_scope.

Section WithLib.
Variable L : Lib.
Variable p : predef.

(** ** Conditions: [P] is what the condition says about the message *)
Inductive condition_says (att method value : string) (m : message) : Prop -> Prop :=
| cn_path k v s : method_is method k -> replaced p method value v -> plain_value v -> shows L att m s ->
    condition_says att method value m (satisfied L k v s)
| cn_nothing rel query : path_of att rel query -> nothing_to_read rel m -> condition_says att method value m False
| cn_text field k v : In (att, field) text_fields -> method_is method k -> replaced p method value v -> plain_value v ->
    condition_says att method value m (text_holds L k v (field m))
| cn_sender_label key k v : att = sender_label key -> label_key_ok key -> method_is method k -> replaced p method value v ->
    ~ starts "receiverLabel[" v ->
    condition_says att method value m (exists t, assoc key (m_source_labels m) = Some t /\ label_holds L k v t)
| cn_receiver_label key k v : att = receiver_label key -> label_key_ok key -> method_is method k -> replaced p method value v ->
    condition_says att method value m (exists t, assoc key (m_dest_labels m) = Some t /\ label_holds L k v t)
| cn_label_pair key key' k : att = sender_label key -> label_key_ok key -> label_key_ok key' -> method_is method k -> k <> KIn -> k <> KNin ->
    replaced p method value (receiver_label key') ->
    condition_says att method value m (exists t u, assoc key (m_source_labels m) = Some t /\ assoc key' (m_dest_labels m) = Some u /\ same_holds k t u)
| cn_object_pair sender receiver k x y : In (x, sender) [("namespace", m_source_namespace); ("cluster", m_source_cluster)] ->
    In (y, receiver) [("namespace", m_dest_namespace); ("cluster", m_dest_cluster)] ->
    att = "$sender." ++ x -> method_is method k -> k <> KIn -> k <> KNin -> replaced p method value ("$receiver." ++ y) ->
    condition_says att method value m (same_holds k (sender m) (receiver m))
| cn_size k v : att = "payloadSize" -> method_is method k -> replaced p method value v -> (In k number_kinds -> parse_int v <> None) ->
    condition_says att method value m (exists z, parse_int v = Some z /\ int_holds k (m_size m) z)
| cn_hours k v : att = "utcHoursFromMidnight" -> method_is method k -> replaced p method value v -> (In k number_kinds -> exists x, quantity L v x) ->
    condition_says att method value m (exists x, quantity L v x /\ float_holds k (m_t_hours m) x)
| cn_version k v a : att = "encryptionVersion" -> method_is method k -> replaced p method value v -> m_enc_version m = Some a ->
    (In k number_kinds -> exists x, quantity L v x) ->
    condition_says att method value m (exists x, quantity L v x /\ float_holds k a x)
| cn_true : In att ["true"; "TRUE"] -> condition_says att method value m True
| cn_false : In att ["false"; "FALSE"] -> condition_says att method value m False.

(** ** Elements of ANY and ALL, from the parent paths as written *)
Definition parsed_elements (a : aanode L) (m : message) (vs : list iface) : Prop :=
  (a_parent a = "$RELATIVE*" /\ exists obj, m_raw_rel m = Some (GMapS obj) /\ entries obj vs) \/
  (a_parent a <> "$RELATIVE*" /\ exists doc items parts,
     (refers_to_element (a_parent a) -> m_raw_rel m = Some doc) /\ (~ refers_to_element (a_parent a) -> m_raw m = Some doc) /\
     comma_items (a_parent a) items /\
     Forall2 (fun path part => exists q, query_for L path (Some q) /\ arranged (fst (jp_query L q doc)) part) items parts /\
     vs = List.concat parts).
(** the messages with each element as the current one; [None]: an error on raw bytes, ANY and ALL are false *)
Definition ranges_over (a : aanode L) (m : message) (r : option (list message)) : Prop :=
  (m_raw m <> None /\ exists vs, parsed_elements a m vs /\ r = Some (map (fun v => set_raw_rel m (Some v)) vs)) \/
  (m_raw m = None /\ exists ts, raw_elements L a m ts /\ r = option_map (map (fun t => set_json_rel m (Some t))) ts).

(** on raw bytes: no number is compared with a text, and there are documents for the return values *)
Definition answerable (c : cond L) (m : message) : Prop := m_raw m = None -> starts "jsonpath:" (c_attr c) ->
  (forall k v t y, method_is (c_method c) k -> In k [KEq; KNeq; KNe] -> replaced p (c_method c) (c_value c) v -> not_number L v ->
     shows L (c_attr c) m (Present t) -> ~ quantity L t y) /\
  (forall rets name path, r_orig (c_ret c) = Some rets -> In (name, path) rets ->
     (starts "jsonpath:$RELATIVE" path -> m_json_rel m <> None) /\ (~ starts "jsonpath:$RELATIVE" path -> m_json m <> None)).

(** ** Trees *)
Fixpoint means (n : node L) (m : message) : Prop :=
  match n with
  | NCond c => exists P, condition_says (c_attr c) (c_method c) (c_value c) m P /\ P
  | NNot n => ~ means n m
  | NAnd ns => fold_right (fun n P => means n m /\ P) True ns
  | NOr ns => fold_right (fun n P => means n m \/ P) False ns
  | NQuant QAny a n => exists ms m', ranges_over a m (Some ms) /\ In m' ms /\ means n m'
  | NQuant QAll a n => (exists ms, ranges_over a m (Some ms)) /\ forall ms m', ranges_over a m (Some ms) -> In m' ms -> means n m'
  | NTrue => True
  | NFalse | NNil => False
  end.
(** every condition says something about the messages it is asked of, and the elements exist *)
Fixpoint covered (n : node L) (m : message) : Prop :=
  match n with
  | NCond c => (exists P, condition_says (c_attr c) (c_method c) (c_value c) m P) /\ answerable c m
  | NNot n => covered n m
  | NAnd ns | NOr ns => fold_right (fun n P => covered n m /\ P) True ns
  | NQuant _ a n => (exists r, ranges_over a m r) /\ forall ms m', ranges_over a m (Some ms) -> In m' ms -> covered n m'
  | NTrue | NFalse => True
  | NNil => False
  end.

(** ** Rules *)
Definition side_accepts (type name : string) (services : list (string * string)) (address : string) (addr : ip) : Prop :=
  exists name', replaced_name p name name' /\
    ((exists text, In (type, text) services /\ name_accepts name' text) \/
     (type = "subnet" /\ exists items, comma_items name' items /\ Exists (fun item => subnet_item L item address addr) items)).
Definition sender_accepts (r : rule L) (m : message) : Prop :=
  side_accepts (ru_sender_type r) (ru_sender_name r) [("*", m_source_service m); ("workload", m_source_service m)] (m_source_ip m) (m_source_netip m).
Definition receiver_accepts (r : rule L) (m : message) : Prop :=
  side_accepts (ru_receiver_type r) (ru_receiver_name r)
    [("*", m_dest_service m); ("workload", m_dest_service m); ("hostname", m_host m)] (m_dest_ip m) (m_dest_netip m).
Definition resource_accepts (r : rule L) (m : message) : Prop :=
  (ru_protocol r = "tcp" /\ list_accepts (ru_resource_name r) (m_dest_port m))
  \/ ru_protocol r = "*"
  \/ (ru_protocol r <> "tcp" /\ ru_protocol r <> "*" /\ same_folded (m_protocol m) (ru_protocol r) /\
      (ru_resource_type r = "*" \/ m_context_type m = ru_resource_type r) /\ list_accepts (ru_resource_name r) (m_path m)).
Definition applies (r : rule L) (m : message) : Prop :=
  sender_accepts r m /\ receiver_accepts r m /\ operation_accepts (ru_operation r) (m_method m) /\ resource_accepts r m /\
  match ru_tree r with None => True | Some n => means n m end.
(** the decision of one rule; 0 is DEFAULT *)
Definition verdict (r : rule L) (m : message) (d : nat) : Prop :=
  (applies r m /\ decision_word (ru_decision r) d) \/
  ((~ applies r m \/ forall d', ~ decision_word (ru_decision r) d') /\ d = 0).

(** rules and messages the meaning covers: names without characters special to regular expressions, trees as loaded that
    are copied faithfully, and conditions that say something about the message *)
Definition side_covered (type name : string) : Prop := type = "subnet" \/ forall name', replaced_name p name name' -> pattern_ok name'.
Definition loaded_tree (n : node L) : Prop := copyable L n /\ exists v, go_value v /\ reads L "" v n.
Record rule_covered (r : rule L) (m : message) : Prop := {
  rc_new : underived L r;
  rc_sender : side_covered (ru_sender_type r) (ru_sender_name r);
  rc_receiver : side_covered (ru_receiver_type r) (ru_receiver_name r);
  rc_operation : pattern_ok (ru_operation r);
  rc_resource : pattern_ok (ru_resource_name r);
  rc_tree : forall n, ru_tree r = Some n -> loaded_tree n /\ covered n m
}.
Definition ascii_message (m : message) : Prop :=
  Forall ascii_text [m_source_service m; m_dest_service m; m_host m; m_method m; m_path m; m_dest_port m].
End WithLib.
