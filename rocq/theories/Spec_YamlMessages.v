(** What YAML documents say about messages, without reference to the decoder. *)
From Coq Require Import List String Ascii Bool Arith ZArith Floats.SpecFloat.
From Verif Require Import Base GoStr GoFloat Types Messages Yaml Spec_Glob Spec_Names Spec_Tree Spec_Messages Spec_Fields Spec_Yaml.
Import ListNotations.
Open Scope string_scope.

(** [z] is the number [f] without its fraction *)
Definition cut (f : f64) (z : Z) : Prop :=
  match f with
  | S754_zero _ => z = 0%Z
  | S754_finite s m e => let k := Z.max 0 (- e) in
    exists a, z = (if s then - a else a)%Z /\ (a * 2 ^ k <= Zpos m * 2 ^ (e + k) < (a + 1) * 2 ^ k)%Z
  | _ => False
  end.
Definition in_int64 (z : Z) : Prop := (- 2 ^ 63 <= z < 2 ^ 63)%Z.
(** 2^63 itself and everything below -2^63 is turned into -2^63 *)
Definition wraps (f : f64) : Prop := f = S754_infinity true \/ exists z, cut f z /\ (z < - 2 ^ 63 \/ z = 2 ^ 63)%Z.
Inductive whole : yaml -> Z -> Prop :=
| wh_null t : whole (YScalar t GNil) 0
| wh_int t z : whole (YScalar t (GInt z)) z
| wh_cut t f z : cut f z -> in_int64 z -> whole (YScalar t (GFloat f)) z
| wh_wraps t f : wraps f -> whole (YScalar t (GFloat f)) (- 2 ^ 63).

(** the usual spellings of null *)
Definition nulls : list string := [""; "~"; "null"].
(** what a pointer points to: nothing for the usual spellings of null, the zero value for the others *)
Inductive pointer {A} (zero : A) (R : yaml -> A -> Prop) : yaml -> option A -> Prop :=
| po_none t : In t nulls -> pointer zero R (YScalar t GNil) None
| po_zero t : ~ In t nulls -> pointer zero R (YScalar t GNil) (Some zero)
| po_some y a : ~ null y -> R y a -> pointer zero R y (Some a).
Inductive number : yaml -> f64 -> Prop :=
| nu_int t z : number (YScalar t (GInt z)) (f64_of_Z z)
| nu_float t f : number (YScalar t (GFloat f)) f.
(** one byte, and bytes *)
Inductive byte : yaml -> ascii -> Prop :=
| bt_null t : byte (YScalar t GNil) "000"
| bt_int t c : byte (YScalar t (GInt (Z.of_nat (nat_of_ascii c)))) c
| bt_cut t f c : cut f (Z.of_nat (nat_of_ascii c)) -> byte (YScalar t (GFloat f)) c.
Definition bytes (y : yaml) (s : string) : Prop := exists l, y = YSeq l /\ Forall2 byte l (list_ascii_of_string s).
(** any value, except a text (in quotes) that looks like null *)
Definition raw_value (y : yaml) (v : iface) : Prop := value y v /\ forall t w, y = YScalar t w -> ~ In t ["~"; "null"].

(** ** Messages (definitions_message.go:14-53) *)
Record message_says (m : list (yaml * yaml)) (msg : message) : Prop := {
  my_text : forall k f, In (k, f) string_keys -> opt m k "" text (f msg);
  my_size : opt m "request_size" 0%Z whole (m_size msg);
  my_version : opt m "encryption_version" None (pointer f_zero number) (m_enc_version msg);
  my_json : opt m "json_raw" None (pointer "" bytes) (m_json msg);
  my_json_rel : opt m "json_raw_relative" None (pointer "" bytes) (m_json_rel msg);
  my_raw : opt m "interface_raw" None (pointer GNil raw_value) (m_raw msg);
  my_raw_rel : opt m "interface_raw_relative" None (pointer GNil raw_value) (m_raw_rel msg)
}.
(** nothing is derived yet *)
Definition fresh_message (msg : message) : Prop :=
  m_t_sec msg = f_zero /\ m_t_min msg = f_zero /\ m_t_hours msg = f_zero /\ m_source_netip msg = [] /\ m_dest_netip msg = [] /\
  m_source_labels msg = [] /\ m_dest_labels msg = [].
Definition message_text (y : yaml) (msg : message) : Prop :=
  fresh_message msg /\ ((null y /\ message_says [] msg) \/ exists m, y = YMap m /\ message_says m msg).
(** a document with messages *)
Definition messages_text (y : yaml) (ms : list message) : Prop :=
  (null y /\ ms = []) \/ exists m, y = YMap m /\ opt m "messages" [] (listing message_text) ms.

(** ** Messages after loading: the derived fields *)
Definition address (L : Lib) (s : string) (i : ip) : Prop :=
  parse_ip L s = Some i \/ (parse_ip L s = None /\ i = []).
(** {k1:v1,...}, lists with an item that has no or two colons, and other texts *)
Record labels_given (t : string) (labels : list (string * string)) : Prop := {
  lg_pairs : forall ls, ls <> [] -> Forall (fun kv => label (fst kv) /\ label (snd kv)) ls -> without_spaces t = labels_text ls -> labels_now ls [] labels;
  lg_unusable : forall items, Forall (all_chars item_char) items -> Exists (fun i => occurrences ":" i <> 1%nat) items -> without_spaces t = in_braces items -> labels = [];
  lg_plain : label (without_spaces t) -> labels = []
}.
Record loaded_message (L : Lib) (m m' : message) : Prop := {
  lm_given : same_given m m';
  lm_context : context_type (m_protocol m) (m_context_type m');
  lm_time : exists h mi s ns, parse_time L (m_time m) = Some (h, mi, s, ns) /\
    within (m_t_sec m') (3600 * h + 60 * mi + s) /\ within (m_t_min m') (60 * h + mi) /\ within (m_t_hours m') h;
  lm_source_ip : address L (m_source_ip m) (m_source_netip m');
  lm_dest_ip : address L (m_dest_ip m) (m_dest_netip m');
  lm_source_labels : labels_given (m_source_labels_json m) (m_source_labels m');
  lm_dest_labels : labels_given (m_dest_labels_json m) (m_dest_labels m')
}.
(** the time of a message can be read *)
Definition timed (L : Lib) (m : message) : Prop := parse_time L (m_time m) <> None.

(** ** A text of one message with one line per entry *)
Definition entry_text (e : yaml * yaml) (kv : string * string) : Prop := text (fst e) (fst kv) /\ text (snd e) (snd kv).
Record plain_entries (L : Lib) (m : list (yaml * yaml)) (es : list (string * string)) (msg : message) : Prop := {
  pe_key : forall k v, In (k, v) es -> all_chars (fun c => letter_digit c \/ c = "_"%char) k;
  pe_value : forall k v, In (k, v) es -> quiet v;
  pe_size : forall y, at_key m "request_size" y -> text y (fmt_int (m_size msg));
  pe_version : forall y, at_key m "encryption_version" y -> exists x u, m_enc_version msg = Some x /\ json_float L x = Some u /\ quiet u;
  pe_raw : forall k, In k ["json_raw"; "json_raw_relative"; "interface_raw"; "interface_raw_relative"] -> no_key m k
}.
