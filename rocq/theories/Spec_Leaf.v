(** Specification of single conditions: what is read from the message and how it is compared. *)
From Coq Require Import List String Ascii Bool Arith ZArith.
From Verif Require Import Base GoStr GoFloat Types Json StrUtils Validate Prepare Spec_Tree Spec_Regex Spec_Glob.
Import ListNotations.
Open Scope string_scope.

(** ** Comparison methods *)
Inductive kind := KEq | KNeq | KNe | KLt | KLe | KGt | KGe | KRe | KNre | KIn | KNin | KEx | KNex | KNone.
(** the words accepted for each method; the lower-case list methods are accepted but mean nothing *)
Definition method_words : list (string * kind) :=
  [("EQ", KEq); ("eq", KEq); ("NEQ", KNeq); ("neq", KNeq); ("NE", KNe); ("ne", KNe);
   ("LT", KLt); ("lt", KLt); ("LE", KLe); ("le", KLe); ("GT", KGt); ("gt", KGt); ("GE", KGe); ("ge", KGe);
   ("RE", KRe); ("re", KRe); ("NRE", KNre); ("nre", KNre); ("IN", KIn); ("IS", KIn); ("NIN", KNin);
   ("in", KNone); ("nin", KNone); ("EX", KEx); ("ex", KEx); ("NEX", KNex); ("nex", KNex)].
Definition method_is (w : string) (k : kind) : Prop := In (w, k) method_words.

(** the value of a condition after references to predefined texts were replaced *)
Inductive replaced (p : predef) (method value : string) : string -> Prop :=
| rp_plain : ~ starts "#" value -> replaced p method value value
| rp_list name l : value = "#" ++ name -> assoc name (p_resolved p) = Some l ->
    replaced p method value (String.concat (if is_any method ["RE"; "NRE"] then "|" else ",") l)
| rp_string name v : value = "#" ++ name -> assoc name (p_resolved p) = None ->
    assoc name (p_strings p) = Some v -> replaced p method value v.

(** not a reference to an attribute of the receiver *)
Definition plain_value (v : string) : Prop := ~ starts "receiverLabel[" v /\ ~ starts "$receiver." v.

(** ** Numbers with units *)
Definition unit_factors : list (string * f64) :=
  [("%", fdiv (f64_of_Z 1) (f64_of_Z 100));
   ("e3", f64_of_Z 1000); ("e6", f64_of_Z 1000000); ("e9", f64_of_Z 1000000000);
   ("e12", f64_of_Z 1000000000000); ("e15", f64_of_Z 1000000000000000);
   ("e18", f64_of_Z 1000000000000000000);
   ("Ki", f64_of_Z 1024); ("Mi", f64_of_Z 1048576); ("Gi", f64_of_Z 1073741824);
   ("Ti", f64_of_Z 1099511627776); ("Pi", f64_of_Z 1125899906842624); ("Ei", f64_of_Z 1152921504606846976);
   ("K", f64_of_Z 1000); ("M", f64_of_Z 1000000); ("G", f64_of_Z 1000000000);
   ("T", f64_of_Z 1000000000000); ("P", f64_of_Z 1000000000000000); ("E", f64_of_Z 1000000000000000000);
   ("m", fdiv (f64_of_Z 1) (f64_of_Z 1000))].

(** [s] is [n] followed by the unit [u], which occurs nowhere else in it *)
Definition has_unit (s n u : string) (f : f64) : Prop :=
  s = n ++ u /\ In (u, f) unit_factors /\ forall a b, s = a ++ u ++ b -> b = "".

(** ** Attributes that are texts of the message *)
Definition text_fields : list (string * (message -> string)) :=
  [("requestUseragent", m_useragent); ("encryptionType", m_enc_type); ("domain", m_domain);
   ("$sender.namespace", m_source_namespace); ("$sender.cluster", m_source_cluster);
   ("$receiver.namespace", m_dest_namespace); ("$receiver.cluster", m_dest_cluster)].
(** labels of the sender or of the receiver *)
Definition sender_label (k : string) : string := "senderLabel[" ++ k ++ "]".
Definition receiver_label (k : string) : string := "receiverLabel[" ++ k ++ "]".
Definition label_key_ok (k : string) : Prop := all_chars (fun c => c <> "]"%char) k.

(** comparison of numbers *)
Definition int_holds (k : kind) (a b : Z) : Prop :=
  match k with
  | KEq => a = b | KNeq | KNe => a <> b
  | KLt => (a < b)%Z | KLe => (a <= b)%Z | KGt => (a > b)%Z | KGe => (a >= b)%Z
  | _ => False
  end.
Definition float_holds (k : kind) (a b : f64) : Prop :=
  match k with
  | KEq => feqb a b = true | KNeq | KNe => feqb a b = false
  | KLt => fltb a b = true | KLe => fleb a b = true
  | KGt => fltb b a = true | KGe => fleb b a = true
  | _ => False
  end.
(** the methods that compare numbers *)
Definition number_kinds : list kind := [KEq; KNeq; KNe; KLt; KLe; KGt; KGe].

Section WithLib.
Variable L : Lib.

Inductive quantity (s : string) : f64 -> Prop :=
| qu_unit n u f x : has_unit s n u f -> parse_float L n = Some x -> quantity s (fmul x f)
| qu_plain x : (forall n u f, ~ has_unit s n u f) -> parse_float L s = Some x ->
    quantity s (fmul x (f64_of_Z 1)).

(** what is needed of strconv.ParseFloat: it reads decimal integers, and no text starting with # *)
Definition NumberSpec : Prop :=
  (forall s z, parse_int s = Some z -> parse_float L s <> None) /\
  (forall s, parse_float L (String "#" s) = None).

(** ** Texts of values *)
(** scalars as printed by fmt, objects and arrays as JSON text (the empty text if there is none) *)
Definition text_of (v : iface) : string :=
  match v with
  | GNil => "<nil>"
  | GBool b => if b then "true" else "false"
  | GInt z => fmt_int z
  | GFloat f => fmt_float L f
  | GStr s => s
  | GArr _ | GMapS _ => match json_marshal L v with Some s => s | None => "" end
  | GMapI o => fmt_mapI L o
  end.

Inductive status := Missing | Misaligned | Present (t : string).

(** What remains of a raw text: outer brackets and quotation marks are removed. *)
Definition status_of (raw : string) : status :=
  if String.eqb raw "" then Missing else
  let u := remove_quotes_and_brackets raw in
  if String.eqb u "" then Missing else
  match remove_quotes_from_result u with
  | None => Misaligned
  | Some t => Present t
  end.

(** The same on a value of a parsed document. *)
Definition value_status (v : iface) : status :=
  if String.eqb (text_of v) "<nil>" then Missing else status_of (text_of v).

(** a text without any of the character pairs that are rewritten, and not quoted *)
Definition clean (t : string) : Prop :=
  t <> "" /\ t <> "[]" /\
  (forall a b, t <> a ++ "[[" ++ b) /\ (forall a b, t <> a ++ "]]" ++ b) /\
  (forall a b, t <> a ++ "[" ++ dqs ++ b) /\ (forall a b, t <> a ++ dqs ++ "]" ++ b) /\
  ~ starts dqs t /\ (forall a, t <> a ++ dqs).

(** ** Comparison of a present text with the rule's value *)
Definition not_number (s : string) : Prop := forall x, ~ quantity s x.

Definition holds (k : kind) (value t : string) : Prop :=
  match k with
  | KEq => (exists x y, quantity value x /\ quantity t y /\ feqb y x = true) \/ (not_number value /\ t = value)
  | KNeq => (exists x, quantity value x /\ forall y, quantity t y -> feqb y x = false)
            \/ (not_number value /\ t <> value)
  | KNe => exists x y, quantity value x /\ quantity t y /\ feqb y x = false
  | KLt => exists x y, quantity value x /\ quantity t y /\ fltb y x = true
  | KLe => exists x y, quantity value x /\ quantity t y /\ fleb y x = true
  | KGt => exists x y, quantity value x /\ quantity t y /\ fltb x y = true
  | KGe => exists x y, quantity value x /\ quantity t y /\ fleb x y = true
  | KRe => exists re, re_compile L value = Some re /\ re_match L re t = true
  | KNre => exists re, re_compile L value = Some re /\ re_match L re t = false
  | KIn => exists re, re_compile L (list_to_alternatives value) = Some re /\ re_match L re t = true
  | KNin => exists re, re_compile L (list_to_alternatives value) = Some re /\ re_match L re t = false
  | KEx => t <> ""
  | KNex => t = ""
  | KNone => False
  end.

Definition satisfied (k : kind) (value : string) (s : status) : Prop :=
  match s with
  | Missing => k = KNex
  | Misaligned => False
  | Present t => holds k value t
  end.

(** ** Attributes compared as texts: requestUseragent, encryptionType, domain, $sender., $receiver. *)
Definition text_holds (k : kind) (value t : string) : Prop :=
  match k with
  | KEq => exists re, re_compile L ("^" ++ value ++ "$") = Some re /\ re_match L re t = true
  | KNeq | KNe => exists re, re_compile L ("^" ++ value ++ "$") = Some re /\ re_match L re t = false
  | KRe | KNre | KIn | KNin | KEx | KNex => holds k value t
  | _ => False
  end.

(** labels are present, so EX holds *)
Definition label_holds (k : kind) (value t : string) : Prop :=
  match k with KEx => True | _ => text_holds k value t end.
(** comparison with another text of the message *)
Definition same_holds (k : kind) (t u : string) : Prop :=
  match k with KEq => t = u | KNeq | KNe => t <> u | _ => False end.

(** ** Conditions *)
(** a condition as written in a rule; loading validates it, preparation replaces references,
    validates again and converts *)
Definition written (att method value : string) (ret : retpart L) : cond L :=
  mkCond att method value no_num no_lab no_obj no_jp ret no_orig.
Definition prepares (p : predef) (att method value : string) (ret : retpart L) (c : cond L) : Prop :=
  exists c0, validate_condition L (written att method value ret) = Ok c0 /\ prepare_condition L p c0 = Ok c.

(** *** What a JSON-path condition reads from a parsed document *)
(** result of a query: [None] is an error; a missing key is not an error *)
Definition asks (q : JQ L) (d : iface) : option iface :=
  match jp_query L q d with
  | (v, None) => Some v
  | (v, Some e) => if contains e "not found in JSON object at" then Some v else None
  end.

Definition key_query (j : jppart L) : Prop := j_query j = "$KEY" \/ starts "$VALUE" (j_query j).

Inductive looked_up (m : message) (j : jppart L) (q : JQ L) : option iface -> Prop :=
| lu_absolute d : j_rel j = false -> m_raw m = Some d -> looked_up m j q (asks q d)
| lu_relative d : j_rel j = true -> ~ key_query j -> m_raw_rel m = Some d -> looked_up m j q (asks q d)
| lu_key o k x : j_rel j = true -> j_query j = "$KEY" -> m_raw_rel m = Some (GMapS o) ->
    In (k, x) o -> looked_up m j q (Some (GStr k))
| lu_value o k x : j_rel j = true -> j_query j = "$VALUE" -> m_raw_rel m = Some (GMapS o) ->
    assoc k o = Some x -> looked_up m j q (Some x)
| lu_value_sub o k x : j_rel j = true -> starts "$VALUE" (j_query j) -> j_query j <> "$VALUE" ->
    m_raw_rel m = Some (GMapS o) -> assoc k o = Some x -> looked_up m j q (asks q x)
| lu_no_entry : j_rel j = true -> key_query j -> m_raw_rel m = Some (GMapS []) ->
    looked_up m j q (Some GNil).

(** every possible reading of the document has this status (a failed query counts as missing) *)
Definition sees (j : jppart L) (m : message) (s : status) : Prop :=
  m_raw m <> None /\ exists q, j_prep j = Some q /\ (exists r, looked_up m j q r) /\
  forall r, looked_up m j q r -> match r with None => s = Missing | Some u => value_status u = s end.

(** *** What it reads from a raw document *)
Definition fetch (data path : string) : option string :=
  match js_get L data path with
  | (bytes, false) => Some bytes
  | (_, true) => None
  end.

(** key or value (as JSON text) of the only entry of an object; empty if there are several or none *)
Definition entry_text (data query : string) : option string :=
  match json_parse L data with
  | Some (GMapS [(k, v)]) => if String.eqb query "$KEY" then Some k else json_marshal L v
  | Some (GMapS _) | Some GNil => Some ""
  | _ => None
  end.

Inductive raw_looked_up (m : message) (j : jppart L) : option string -> Prop :=
| rl_absolute d : j_rel j = false -> m_json m = Some d -> d <> "" -> raw_looked_up m j (fetch d (j_query j))
| rl_relative d : j_rel j = true -> ~ key_query j -> m_json_rel m = Some d -> d <> "" ->
    raw_looked_up m j (fetch d (j_query j))
| rl_entry d : j_rel j = true -> key_query j -> ~ starts "$VALUE." (j_query j) ->
    m_json_rel m = Some d -> d <> "" -> raw_looked_up m j (entry_text d (j_query j))
| rl_entry_sub d path : j_rel j = true -> j_query j = "$VALUE." ++ path ->
    m_json_rel m = Some d -> d <> "" ->
    raw_looked_up m j (fetch (match entry_text d (j_query j) with Some s => s | None => "" end) ("$." ++ path)).

Definition sees_raw (j : jppart L) (m : message) (s : status) : Prop :=
  m_raw m = None /\ exists r, raw_looked_up m j r /\
  match r with None => s = Missing | Some raw => status_of raw = s end.

(** *** Attributes naming a path, whether it is relative to the current element, and the query *)
Definition path_chars (rest : string) : Prop :=
  all_chars (fun c => ~ In c [sq; dq; "$"%char]) rest /\ forall a b, rest <> a ++ ".[" ++ b.
Inductive path_of : string -> bool -> string -> Prop :=
| po_absolute rest : starts "." rest -> path_chars rest ->
    path_of ("jsonpath:$" ++ rest) false ("$" ++ rest)
| po_short rest : starts "." rest -> path_chars rest ->
    path_of ("jsonpath:" ++ rest) false ("$" ++ rest)
| po_relative rest : starts "." rest -> path_chars rest ->
    path_of ("jsonpath:$RELATIVE" ++ rest) true ("$" ++ rest)
| po_element : path_of "jsonpath:$RELATIVE" true "$"
| po_key : path_of "jsonpath:$KEY" true "$KEY"
| po_value : path_of "jsonpath:$VALUE" true "$VALUE".

(** what the message has at a path: in a parsed document (preferred) or in a raw one *)
Inductive status_at (m : message) (rel : bool) (query : string) : status -> Prop :=
| sa_parsed q d : m_raw m <> None -> ~ In query ["$KEY"; "$VALUE"] -> jp_prepare L query = Some q ->
    (if rel then m_raw_rel m else m_raw m) = Some d ->
    status_at m rel query (match asks q d with None => Missing | Some v => value_status v end)
| sa_key k x : m_raw m <> None -> query = "$KEY" -> jp_prepare L "$.*" <> None ->
    m_raw_rel m = Some (GMapS [(k, x)]) -> status_at m rel query (value_status (GStr k))
| sa_value k x : m_raw m <> None -> query = "$VALUE" -> jp_prepare L "$.*" <> None ->
    m_raw_rel m = Some (GMapS [(k, x)]) -> status_at m rel query (value_status x)
| sa_raw d : m_raw m = None -> ~ In query ["$KEY"; "$VALUE"] ->
    (if rel then m_json_rel m else m_json m) = Some d -> d <> "" ->
    status_at m rel query (match fetch d query with None => Missing | Some raw => status_of raw end)
| sa_raw_entry d : m_raw m = None -> In query ["$KEY"; "$VALUE"] ->
    m_json_rel m = Some d -> d <> "" ->
    status_at m rel query (match entry_text d query with None => Missing | Some raw => status_of raw end).

(** what the path of the attribute shows *)
Definition shows (att : string) (m : message) (s : status) : Prop :=
  exists rel query, path_of att rel query /\ status_at m rel query s.

(** no document to read from *)
Definition nothing_to_read (rel : bool) (m : message) : Prop :=
  if rel
  then (m_raw m <> None -> m_raw_rel m = None) /\ (m_raw m = None -> m_json_rel m = None \/ m_json_rel m = Some "")
  else m_raw m = None /\ (m_json m = None \/ m_json m = Some "").

End WithLib.
