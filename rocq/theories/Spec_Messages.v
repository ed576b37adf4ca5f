(** Specification of the derived fields of messages. *)
From Coq Require Import List String Ascii Bool Arith ZArith.
From Verif Require Import Base GoStr GoFloat Types Spec_Glob Spec_Names.
Import ListNotations.
Open Scope string_scope.

(** ** Labels *)
Definition label_char (c : ascii) : Prop := (32 < nat_of_ascii c)%nat /\ ~ In c [dq; bslash; ":"; ","; "{"; "}"]%char.
Definition label (s : string) : Prop := all_chars label_char s.
(** {k1:v1,k2:v2} *)
Definition in_braces (items : list string) : string := "{" ++ String.concat "," items ++ "}".
Definition labels_text (ls : list (string * string)) : string := in_braces (map (fun kv => fst kv ++ ":" ++ snd kv) ls).
Definition item_char (c : ascii) : Prop := label_char c \/ c = ":"%char.

(** the last value given to [k] *)
Definition last_value (k : string) (ls : list (string * string)) (v : string) : Prop :=
  exists a b, ls = (a ++ (k, v) :: b)%list /\ ~ In k (map fst b).
(** [new] holds the labels [ls], and those of [old] with other keys *)
Definition labels_now (ls old new : list (string * string)) : Prop :=
  forall k v, assoc k new = Some v <-> last_value k ls v \/ (~ In k (map fst ls) /\ assoc k old = Some v).

(** ** Context type *)
Definition context_types : list (string * string) := [("HTTP", "path"); ("http", "path"); ("TCP", "port"); ("tcp", "port")].
Definition context_type (protocol t : string) : Prop :=
  In (protocol, t) context_types \/ (~ In protocol (map fst context_types) /\ t = "").

(** ** Time of day *)
(** [x] is at least [n] and less than [n]+1 *)
Definition within (x : f64) (n : Z) : Prop := fleb (f64_of_Z n) x = true /\ fltb x (f64_of_Z (n + 1)) = true.
Definition clock_reading (c : Z * Z * Z * Z) : Prop :=
  let '(h, mi, s, ns) := c in (0 <= h < 24 /\ 0 <= mi < 60 /\ 0 <= s < 60 /\ 0 <= ns < 1000000000)%Z.
Definition earlier (c c' : Z * Z * Z * Z) : Prop :=
  let '(h, mi, s, ns) := c in let '(h', mi', s', ns') := c' in
  (h < h' \/ h = h' /\ (mi < mi' \/ mi = mi' /\ (s < s' \/ s = s' /\ ns < ns')))%Z.
(** time.Parse returns clock readings *)
Definition TimeSpec (L : Lib) : Prop := forall s c, parse_time L s = Some c -> clock_reading c.

(** ** The fields that are given *)
Definition same_given (m m' : message) : Prop :=
  m_source_ip m = m_source_ip m' /\ m_source_namespace m = m_source_namespace m' /\ m_source_cluster m = m_source_cluster m' /\
  m_dest_ip m = m_dest_ip m' /\ m_dest_port m = m_dest_port m' /\ m_dest_namespace m = m_dest_namespace m' /\
  m_dest_cluster m = m_dest_cluster m' /\ m_path m = m_path m' /\ m_host m = m_host m' /\ m_method m = m_method m' /\
  m_size m = m_size m' /\ m_time m = m_time m' /\ m_useragent m = m_useragent m' /\ m_protocol m = m_protocol m' /\
  m_id m = m_id m' /\ m_source_service m = m_source_service m' /\ m_dest_service m = m_dest_service m' /\
  m_source_labels_json m = m_source_labels_json m' /\ m_dest_labels_json m = m_dest_labels_json m' /\
  m_enc_type m = m_enc_type m' /\ m_enc_version m = m_enc_version m' /\ m_json m = m_json m' /\ m_json_rel m = m_json_rel m' /\
  m_raw m = m_raw m' /\ m_raw_rel m = m_raw_rel m' /\ m_domain m = m_domain m'.
(** the fields derived by the four steps *)
Definition same_context (m m' : message) : Prop := m_context_type m = m_context_type m'.
Definition same_times (m m' : message) : Prop := m_t_sec m = m_t_sec m' /\ m_t_min m = m_t_min m' /\ m_t_hours m = m_t_hours m'.
Definition same_ips (m m' : message) : Prop := m_source_netip m = m_source_netip m' /\ m_dest_netip m = m_dest_netip m'.
Definition same_labels (m m' : message) : Prop := m_source_labels m = m_source_labels m' /\ m_dest_labels m = m_dest_labels m'.
