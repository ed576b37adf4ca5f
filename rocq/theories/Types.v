(** Data types of the engine. *)
From Coq Require Import List String Ascii Bool ZArith.
From Verif Require Import Base GoStr GoFloat.
Import ListNotations.
Open Scope string_scope.

(** ** interface{} values.
    The dynamic types that reach the engine: those produced by encoding/json
    ([GNil], [GBool], [GFloat], [GStr], [GArr], [GMapS]) and by yaml.v2 (also
    [GInt] and [GMapI], i.e. map[interface{}]interface{}).
    Simplification: other Go types (uint64, time.Time, custom structs) are not represented. *)
Inductive iface : Type :=
| GNil
| GBool (b : bool)
| GInt (z : Z)
| GFloat (f : f64)
| GStr (s : string)
| GArr (l : list iface)
| GMapS (m : list (string * iface))
| GMapI (m : list (iface * iface)).

(** net.IP / net.IPMask as byte lists ([[]] is nil); net.IPNet *)
Definition ip := list Z.
Record ipnet := mkIpnet { n_ip : ip; n_mask : ip }.

(** ** External libraries.
    Everything the engine calls but does not implement.  Theorems quantify over
    all [Lib]. *)
Record Lib := mkLib {
  RE : Type;                               (* *regexp.Regexp *)
  re_compile : string -> option RE;        (* regexp.Compile *)
  re_match : RE -> string -> bool;         (* Regexp.MatchString / Match *)
  JQ : Type;                               (* github.com/yalp/jsonpath FilterFunc *)
  jp_prepare : string -> option JQ;        (* jsonpath.Prepare *)
  jp_query : JQ -> iface -> iface * option string; (* calling the FilterFunc: value, error text *)
  js_get : string -> string -> string * bool;      (* jsonslice.Get data path: bytes, failed? *)
  ugly : string -> string;                 (* tidwall/pretty.Ugly *)
  parse_float : string -> option f64;      (* strconv.ParseFloat(s, 64), None on error *)
  fmt_float : f64 -> string;               (* fmt.Sprintf("%v", float64) *)
  json_float : f64 -> option string;       (* encoding/json of a float64, None on NaN/Inf *)
  fmt_mapI : list (iface * iface) -> string; (* "%v" of map[interface{}]interface{} *)
  parse_ip : string -> option ip;          (* net.ParseIP *)
  parse_cidr : string -> option ipnet;     (* net.ParseCIDR, second result *)
  parse_time : string -> option (Z * Z * Z * Z); (* time.Parse(RFC3339): hour, minute, second, nanosecond *)
  md5hex : string -> string;               (* fmt.Sprintf("%x", md5.Sum(s)) *)
  re_json : RE -> option RE                (* a Regexp written and read by encoding/json; None: an empty
                                              Regexp, whose use panics (Go before 1.21) *)
}.

(** Order in which the keys of a map are visited by the n-th [range] over a map. *)
Definition order := nat -> list string -> list string.

(** definitions_message.go:11-64 MessageAttributes.
    Pointers are options; [m_raw = Some GNil] is a non-nil pointer to a nil interface. *)
Record message := mkMessage {
  m_source_ip : string;
  m_source_namespace : string;
  m_source_cluster : string;
  m_dest_ip : string;
  m_dest_port : string;
  m_dest_namespace : string;
  m_dest_cluster : string;
  m_path : string;
  m_host : string;
  m_method : string;
  m_size : Z;
  m_time : string;
  m_useragent : string;
  m_protocol : string;
  m_id : string;
  m_source_service : string;
  m_dest_service : string;
  m_source_labels_json : string;
  m_dest_labels_json : string;
  m_context_type : string;
  m_enc_type : string;
  m_enc_version : option f64;
  m_json : option string;        (* RequestJsonRaw *)
  m_json_rel : option string;    (* RequestJsonRawRelative *)
  m_raw : option iface;          (* RequestRawInterface *)
  m_raw_rel : option iface;      (* RequestRawInterfaceRelative *)
  m_domain : string;
  m_t_sec : f64;
  m_t_min : f64;
  m_t_hours : f64;
  m_source_netip : ip;
  m_dest_netip : ip;
  m_source_labels : list (string * string);
  m_dest_labels : list (string * string)
}.

Definition set_raw_rel (m : message) (r : option iface) : message :=
  mkMessage (m_source_ip m) (m_source_namespace m) (m_source_cluster m) (m_dest_ip m) (m_dest_port m)
   (m_dest_namespace m) (m_dest_cluster m) (m_path m) (m_host m) (m_method m) (m_size m) (m_time m)
   (m_useragent m) (m_protocol m) (m_id m) (m_source_service m) (m_dest_service m)
   (m_source_labels_json m) (m_dest_labels_json m) (m_context_type m) (m_enc_type m) (m_enc_version m)
   (m_json m) (m_json_rel m) (m_raw m) r (m_domain m) (m_t_sec m) (m_t_min m) (m_t_hours m)
   (m_source_netip m) (m_dest_netip m) (m_source_labels m) (m_dest_labels m).

Definition set_json_rel (m : message) (r : option string) : message :=
  mkMessage (m_source_ip m) (m_source_namespace m) (m_source_cluster m) (m_dest_ip m) (m_dest_port m)
   (m_dest_namespace m) (m_dest_cluster m) (m_path m) (m_host m) (m_method m) (m_size m) (m_time m)
   (m_useragent m) (m_protocol m) (m_id m) (m_source_service m) (m_dest_service m)
   (m_source_labels_json m) (m_dest_labels_json m) (m_context_type m) (m_enc_type m) (m_enc_version m)
   (m_json m) r (m_raw m) (m_raw_rel m) (m_domain m) (m_t_sec m) (m_t_min m) (m_t_hours m)
   (m_source_netip m) (m_dest_netip m) (m_source_labels m) (m_dest_labels m).

(** definitions_lists.go:3-7 PredefinedStringsAndLists *)
Record predef := mkPredef {
  p_strings : list (string * string);
  p_lists : list (string * list string);
  p_resolved : list (string * list string)   (* PredefinedListsWithoutRefs *)
}.
Definition empty_predef : predef := mkPredef [] [] [].

(** One record of extra data: map[string]interface{} *)
Definition extra := list (list (string * iface)).

Section WithLib.
Variable L : Lib.

(** definitions_rule.go:53-90 Condition, its derived fields grouped:
    [numpart] lines 58-61, [labpart] 63-68, [objpart] 70-75, [jppart] 77-80,
    [retpart] 82-85, [origpart] 87-89. *)
Record numpart := mkNum {
  n_int : option Z;
  n_float : option f64;
  n_regex : option (RE L);         (* ValueRegex *)
  n_string_regex : option (RE L)   (* ValueStringRegex *)
}.
Record labpart := mkLab {
  l_is_sender : bool; l_sender_key : string;
  l_is_receiver : bool; l_receiver_key : string;
  l_value_is_receiver : bool; l_value_key : string
}.
Record objpart := mkObj {
  o_is_sender : bool; o_is_receiver : bool; o_value_is_receiver : bool;
  o_sender_attr : string; o_receiver_attr : string; o_value_attr : string
}.
Record jppart := mkJp {
  j_is : bool; j_rel : bool; j_query : string; j_prep : option (JQ L)
}.
(** map[string]jsonpath.FilterFunc: a nil function is [None] *)
Record retpart := mkRet {
  r_paths : option (list (string * string));      (* ReturnValueJsonpath (None = nil map) *)
  r_orig : option (list (string * string));       (* ReturnValueJsonpathOriginal *)
  r_prep : list (string * option (JQ L));
  r_rel : list (string * bool)
}.
Record origpart := mkOrig { og_attr : string; og_method : string; og_value : string }.

Record cond := mkCond {
  c_attr : string;
  c_method : string;
  c_value : string;
  c_num : numpart;
  c_lab : labpart;
  c_obj : objpart;
  c_jp : jppart;
  c_ret : retpart;
  c_orig : origpart
}.

Definition no_num : numpart := mkNum None None None None.
Definition no_lab : labpart := mkLab false "" false "" false "".
Definition no_obj : objpart := mkObj false false false "" "" "".
Definition no_jp : jppart := mkJp false false "" None.
Definition no_ret : retpart := mkRet None None [] [].
Definition no_orig : origpart := mkOrig "" "" "".

(** conditions_tree.go:247-257 (Any) and 458-468 (All): same fields.
    [a_prep] = [[]] models the nil slice (strings.Split never returns an empty slice, so
    a prepared node has at least one query). *)
Record aanode := mkAA {
  a_parent : string;                  (* ParentJsonpathAttribute *)
  a_parents : list string;            (* ParentJsonpathAttributeArray *)
  a_orig : string;                    (* ParentJsonpathAttributeOriginal *)
  a_ret : retpart;
  a_prep : list (option (JQ L))       (* PreparedJsonpathQuery *)
}.

Inductive quant := QAny | QAll.

(** conditions_tree.go:100-106 Node; [NNil] is the nil interface (a NOT, ANY or ALL
    without an inner node). *)
Inductive node : Type :=
| NAnd (ns : list node)
| NOr (ns : list node)
| NNot (n : node)
| NQuant (q : quant) (a : aanode) (n : node)
| NTrue
| NFalse
| NCond (c : cond)
| NNil.

(** definitions_rule.go:29-37 ExpandedSenderReceiver *)
Record expanded := mkExp {
  x_name : string; x_type : string; x_regexp : option (RE L);
  x_is_ip : bool; x_is_cidr : bool; x_cidr : ipnet; x_ip : ip
}.

(** definitions_rule.go:92-117 Rule without its private fields (see Lifecycle.v).
    Simplification: Metadata is an association list; OperationRegex and
    ResourceNameRegex are [None] for nil. *)
Record rule := mkRule {
  ru_id : string;
  ru_sender_name : string; ru_sender_type : string; ru_sender_list : list expanded;
  ru_receiver_name : string; ru_receiver_type : string; ru_receiver_list : list expanded;
  ru_protocol : string;
  ru_resource_type : string; ru_resource_name : string; ru_resource_regex : option (RE L);
  ru_operation : string;
  ru_tree : option node;
  ru_decision : string;
  ru_metadata : list (string * string);
  ru_hash : string;
  ru_operation_regex : option (RE L);
  ru_converted : bool                 (* AlreadyConvertedFieldsToRegexFlag *)
}.

End WithLib.

Arguments mkNum {L}. Arguments n_int {L}. Arguments n_float {L}.
Arguments n_regex {L}. Arguments n_string_regex {L}.
Arguments mkJp {L}. Arguments j_is {L}. Arguments j_rel {L}. Arguments j_query {L}. Arguments j_prep {L}.
Arguments mkRet {L}. Arguments r_paths {L}. Arguments r_orig {L}. Arguments r_prep {L}. Arguments r_rel {L}.
Arguments mkCond {L}. Arguments c_attr {L}. Arguments c_method {L}. Arguments c_value {L}.
Arguments c_num {L}. Arguments c_lab {L}. Arguments c_obj {L}. Arguments c_jp {L}.
Arguments c_ret {L}. Arguments c_orig {L}.
Arguments no_num {L}. Arguments no_jp {L}. Arguments no_ret {L}.
Arguments mkAA {L}. Arguments a_parent {L}. Arguments a_parents {L}. Arguments a_orig {L}.
Arguments a_ret {L}. Arguments a_prep {L}.
Arguments NAnd {L}. Arguments NOr {L}. Arguments NNot {L}. Arguments NQuant {L}.
Arguments NTrue {L}. Arguments NFalse {L}. Arguments NCond {L}. Arguments NNil {L}.
Arguments mkExp {L}. Arguments x_name {L}. Arguments x_type {L}. Arguments x_regexp {L}.
Arguments x_is_ip {L}. Arguments x_is_cidr {L}. Arguments x_cidr {L}. Arguments x_ip {L}.
Arguments mkRule {L}. Arguments ru_id {L}. Arguments ru_sender_name {L}. Arguments ru_sender_type {L}.
Arguments ru_sender_list {L}. Arguments ru_receiver_name {L}. Arguments ru_receiver_type {L}.
Arguments ru_receiver_list {L}. Arguments ru_protocol {L}. Arguments ru_resource_type {L}.
Arguments ru_resource_name {L}. Arguments ru_resource_regex {L}. Arguments ru_operation {L}.
Arguments ru_tree {L}. Arguments ru_decision {L}. Arguments ru_metadata {L}. Arguments ru_hash {L}.
Arguments ru_operation_regex {L}. Arguments ru_converted {L}.
