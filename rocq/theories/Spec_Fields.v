(** Specification of the messages read one by one from YAML. *)
From Coq Require Import List String Ascii Bool Arith ZArith.
From Verif Require Import Base GoStr GoFloat Types Spec_Glob Spec_Tree Spec_Names.
Import ListNotations.
Open Scope string_scope.

(** the keys of a message in YAML (definitions_message.go:14-53) whose values are strings *)
Definition string_keys : list (string * (message -> string)) :=
  [("sender_ip", m_source_ip); ("sender_namespace", m_source_namespace); ("sender_cluster", m_source_cluster);
   ("receiver_ip", m_dest_ip); ("receiver_port", m_dest_port); ("receiver_namespace", m_dest_namespace); ("receiver_cluster", m_dest_cluster);
   ("request_path", m_path); ("request_host", m_host); ("request_method", m_method); ("request_time", m_time); ("request_user_agent", m_useragent);
   ("request_protocol", m_protocol); ("message_id", m_id); ("sender_service", m_source_service); ("receiver_service", m_dest_service);
   ("sender_labels", m_source_labels_json); ("receiver_labels", m_dest_labels_json); ("request_type", m_context_type);
   ("encryption_type", m_enc_type); ("domain", m_domain)].

(** words that are changed when the fields are counted, and final characters that are dropped *)
Definition loud_words : list string :=
  ["null"; "ValueInt:"; "ValueFloat:"; "ValueRegex:"; "ValueTime:"; "UTC:"; "RequestTimeMinutesParity:"; "ContextType:"; "0001-01-01T00:00:00Z"; ": "].
Definition last_chars : list ascii := [","; "{"; "}"; "["; "]"]%char.
Record quiet (v : string) : Prop := {
  q_nonempty : v <> "";
  q_chars : all_chars (fun c => (32 <= nat_of_ascii c)%nat /\ ~ In c [dq; bslash; "<"; ">"; "&"]%char) v;
  q_first : ~ starts " " v;
  q_words : forall w, In w loud_words -> ~ occurs w v;
  q_last : forall x c, v = x ++ String c "" -> ~ In c last_chars
}.

(** A YAML text: one line per entry *)
Definition line_end : string := String "010" "".
Definition yaml_text (es : list (string * string)) : string := concat "" (map (fun e => fst e ++ ": " ++ snd e ++ line_end) es).

(** letters and digits around a colon *)
Definition letter_digit (c : ascii) : Prop :=
  let n := nat_of_ascii c in (48 <= n <= 57 \/ 65 <= n <= 90 \/ 97 <= n <= 122)%nat.
Definition colon_pair (s : string) : Prop := exists x a b y, letter_digit a /\ letter_digit b /\ s = x ++ String a (String ":" (String b y)).
(** the message such a text stands for: a key that is not known is skipped when the text is decoded *)
Definition known_keys : list string := "request_size" :: "encryption_version" :: map fst string_keys.
Record describes (L : Lib) (es : list (string * string)) (m : message) : Prop := {
  d_once : NoDup (map fst es);
  d_key : forall k v, In (k, v) es -> all_chars (fun c => letter_digit c \/ c = "_"%char) k;
  d_quiet : forall k v, In (k, v) es -> quiet v;
  d_string : forall k f, In (k, f) string_keys -> In (k, f m) es \/ (~ In k (map fst es) /\ f m = "");
  d_size : In ("request_size", fmt_int (m_size m)) es \/ (~ In "request_size" (map fst es) /\ m_size m = 0%Z);
  d_version : (exists v x t, In ("encryption_version", v) es /\ m_enc_version m = Some x /\ json_float L x = Some t /\ quiet t) \/
    (~ In "encryption_version" (map fst es) /\ m_enc_version m = None);
  d_raw : m_json m = None /\ m_json_rel m = None /\ m_raw m = None /\ m_raw_rel m = None
}.

(** [u] is the first word of [v] *)
Definition first_word (v u : string) : Prop :=
  exists r, v = u ++ r /\ all_chars (fun c => ~ In (nat_of_ascii c) [32; 9; 10; 12; 13]%nat) u /\
    (r = "" \/ exists c r', r = String c r' /\ In (nat_of_ascii c) [32; 9; 10; 12; 13]%nat).

(** what the count does not object to *)
Record countable (es : list (string * string)) : Prop := {
  co_known : forall k v, In (k, v) es -> In k known_keys;
  co_type : ~ In "request_type" (map fst es);
  co_size : ~ In ("request_size", "0") es;
  co_labels : forall k v u, In (k, v) es -> first_word v u ->
    occurs "sender_label" (k ++ ": " ++ u) \/ occurs "receiver_label" (k ++ ": " ++ u) -> ~ colon_pair u
}.
