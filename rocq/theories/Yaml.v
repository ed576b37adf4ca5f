(** Reading rules, dictionaries and messages from YAML documents: rules_load.go:27-62, 98-140,
    predefined_lists_load.go:11-40, messages_load.go:14-69, with the struct tags of definitions_rule.go:15-121,
    definitions_lists.go:3-7 and definitions_message.go:11-69, and the decoder of gopkg.in/yaml.v2 v2.4.0 (decode.go)
    for the types that occur there. *)
From Coq Require Import List String Ascii Bool Arith ZArith Floats.SpecFloat.
From Verif Require Import Base GoStr GoFloat Types Json StrUtils Validate Prepare Parse Marshal Lifecycle Messages Fields.
Import ListNotations.
Open Scope string_scope.

(** A YAML document after parsing: a scalar with its text and the value it stands for in an interface{},
    sequences, mappings with their entries in order.  An empty document is a scalar with the text "" and no value.
    Simplifications: aliases are expanded, there are no merge keys, no custom tags and no !!binary. *)
Inductive yaml : Type :=
| YScalar (text : string) (v : iface)
| YSeq (l : list yaml)
| YMap (m : list (yaml * yaml)).

(** ** Decoding into interface{} *)
(** equality of keys of a map[interface{}]interface{}.  Simplification: NaN equals NaN. *)
Definition is_nan (f : f64) : bool := match f with S754_nan => true | _ => false end.
Definition key_eqb (a b : iface) : bool :=
  match a, b with
  | GNil, GNil => true
  | GBool x, GBool y => Bool.eqb x y
  | GInt x, GInt y => Z.eqb x y
  | GFloat x, GFloat y => feqb x y || is_nan x && is_nan y
  | GStr x, GStr y => String.eqb x y
  | _, _ => false
  end.
(** the assignment of an entry to a map *)
Fixpoint put (k v : iface) (m : list (iface * iface)) : list (iface * iface) :=
  match m with
  | [] => [(k, v)]
  | (k', v') :: m' => if key_eqb k' k then (k', v) :: m' else (k', v') :: put k v m'
  end.
Definition is_collection (v : iface) : bool :=
  match v with GArr _ | GMapS _ | GMapI _ => true | _ => false end.
(** [None] is the error "invalid map key" *)
Fixpoint decode_any (y : yaml) : option iface :=
  match y with
  | YScalar _ v => Some v
  | YSeq l => option_map GArr (all_some (map decode_any l))
  | YMap m =>
    match all_some (map (fun e => match decode_any (fst e), decode_any (snd e) with
                                  | Some k, Some v => if is_collection k then None else Some (k, v)
                                  | _, _ => None
                                  end) m) with
    | Some es => Some (GMapI (fold_left (fun acc e => put (fst e) (snd e) acc) es []))
    | None => None
    end
  end.

(** rules_load.go:140-143 testYaml: UnmarshalStrict into an interface{}, which also refuses repeated keys *)
Fixpoint distinct_keys (ks : list iface) : bool :=
  match ks with
  | [] => true
  | k :: ks' => negb (existsb (key_eqb k) ks') && distinct_keys ks'
  end.
Fixpoint test_yaml (y : yaml) : bool :=
  match y with
  | YScalar _ _ => true
  | YSeq l => forallb test_yaml l
  | YMap m =>
    forallb (fun e => test_yaml (fst e) && test_yaml (snd e)) m &&
    match all_some (map (fun e => decode_any (fst e)) m) with
    | Some ks => negb (existsb is_collection ks) && distinct_keys ks
    | None => false
    end
  end.

(** ** Decoding into the other types.
    The result is the new value and whether an error was recorded: the decoder goes on after a value of the wrong
    type and reports the error at the end. *)
Definition has_value (v : iface) : bool := match v with GNil => false | _ => true end.

(** string: the text of the scalar *)
Definition decode_string (y : yaml) (old : string) : string * bool :=
  match y with
  | YScalar t v => (if has_value v then t else "", false)
  | _ => (old, true)
  end.
(** bool *)
Definition decode_bool (y : yaml) (old : bool) : bool * bool :=
  match y with
  | YScalar _ (GBool b) => (b, false)
  | YScalar _ GNil => (false, false)
  | _ => (old, true)
  end.
(** map[string]string: entries are added to the map there is *)
Fixpoint decode_entries {A} (elem : yaml -> A * bool) (m : list (yaml * yaml)) (old : list (string * A)) : list (string * A) * bool :=
  match m with
  | [] => (old, false)
  | (k, y) :: m' =>
    match decode_string k "" with
    | (_, true) => (fst (decode_entries elem m' old), true)
    | (name, false) =>
      match elem y with
      | (_, true) => (fst (decode_entries elem m' old), true)
      | (a, false) => decode_entries elem m' (upsert name a old)
      end
    end
  end.
Definition decode_map {A} (elem : yaml -> A * bool) (y : yaml) (old : list (string * A)) : list (string * A) * bool :=
  match y with
  | YScalar _ GNil => ([], false)
  | YMap m => decode_entries elem m old
  | _ => (old, true)
  end.
(** []T: a new slice *)
Fixpoint decode_items {A} (elem : yaml -> A * bool) (l : list yaml) : list A * bool :=
  match l with
  | [] => ([], false)
  | y :: l' =>
    match elem y, decode_items elem l' with
    | (a, false), (al, bad) => (a :: al, bad)
    | (_, true), (al, _) => (al, true)
    end
  end.
Definition decode_slice {A} (elem : yaml -> A * bool) (y : yaml) (old : list A) : list A * bool :=
  match y with
  | YScalar _ GNil => ([], false)
  | YSeq l => decode_items elem l
  | _ => (old, true)
  end.
(** int64 of a floating-point number that is at most 2^63, as amd64 converts it; [None]: it is greater or not a number.
    Simplification: integers of YAML documents fit in 64 bits. *)
Definition f64_trunc (f : f64) : Z :=
  match f with
  | S754_finite s m e =>
    let a := (if (0 <=? e)%Z then Zpos m * 2 ^ e else Zpos m / 2 ^ (- e))%Z in if s then (- a)%Z else a
  | _ => 0%Z
  end.
Definition f64_int64 (f : f64) : option Z :=
  match f with
  | S754_nan | S754_infinity false => None
  | S754_infinity true => Some (- 2 ^ 63)%Z
  | _ =>
    let z := f64_trunc f in
    if (2 ^ 63 <? z)%Z then None else Some (if (z <? - 2 ^ 63)%Z || (z =? 2 ^ 63)%Z then - 2 ^ 63 else z)%Z
  end.
Definition decode_int (y : yaml) (old : Z) : Z * bool :=
  match y with
  | YScalar _ (GInt z) => (z, false)
  | YScalar _ (GFloat f) => match f64_int64 f with Some z => (z, false) | None => (old, true) end
  | YScalar _ GNil => (0%Z, false)
  | _ => (old, true)
  end.
(** texts that are taken for null before a pointer is filled or an UnmarshalYAML method is called (decode.go prepare) *)
Definition null_text (t : string) (v : iface) : bool :=
  is_any t ["null"; "~"] || String.eqb t "" && negb (has_value v).
(** *float64 *)
Definition decode_float (y : yaml) (old : option f64) : option f64 * bool :=
  match y with
  | YScalar _ (GInt z) => (Some (f64_of_Z z), false)
  | YScalar _ (GFloat f) => (Some f, false)
  | YScalar t GNil => (if null_text t GNil then None else Some f_zero, false)
  | _ => (old, true)
  end.
(** *[]byte: a sequence of small numbers *)
Definition small_byte (z : Z) : ascii * bool :=
  if (0 <=? z)%Z && (z <=? 255)%Z then (ascii_of_N (Z.to_N z), false) else (zero, true).
Definition decode_byte (y : yaml) : ascii * bool :=
  match y with
  | YScalar _ (GInt z) => small_byte z
  | YScalar _ (GFloat ((S754_zero _ | S754_finite _ _ _) as f)) => small_byte (f64_trunc f)
  | YScalar _ GNil => (zero, false)
  | _ => (zero, true)
  end.
Definition string_of (l : list ascii) : string := fold_right String "" l.
Definition decode_bytes (y : yaml) (old : option string) : option string * bool :=
  match y with
  | YScalar t GNil => (if null_text t GNil then None else Some "", false)
  | YSeq l => let (bs, bad) := decode_items decode_byte l in (Some (string_of bs), bad)
  | _ => (old, true)
  end.

(** ** Structs *)
(** computations that may also visit maps in some order or panic (UnmarshalYAML of conditions) *)
Definition lift {A} (f : yaml -> A -> A * bool) (y : yaml) (old : A) : P (A * bool) := pret (Ok (f y old)).
(** decode.go mappingStruct: entry by entry; unknown keys are skipped *)
Fixpoint decode_struct {A} (field : string -> option (yaml -> A -> P (A * bool))) (m : list (yaml * yaml)) (a : A) : P (A * bool) :=
  match m with
  | [] => pret (Ok (a, false))
  | (k, y) :: m' =>
    match decode_string k "" with
    | (_, true) => pdo (a', _) <- decode_struct field m' a; pret (Ok (a', true))
    | (name, false) =>
      match field name with
      | None => decode_struct field m' a
      | Some f =>
        pdo (a1, bad1) <- f y a;
        pdo (a2, bad2) <- decode_struct field m' a1;
        pret (Ok (a2, bad1 || bad2))
      end
    end
  end.
Definition decode_into {A} (new : A) (field : string -> option (yaml -> A -> P (A * bool))) (y : yaml) (old : A) : P (A * bool) :=
  match y with
  | YScalar _ GNil => pret (Ok (new, false))
  | YMap m => decode_struct field m old
  | _ => pret (Ok (old, true))
  end.
(** slices of structs *)
Fixpoint decode_structs {A} (elem : yaml -> P (A * bool)) (l : list yaml) : P (list A * bool) :=
  match l with
  | [] => pret (Ok ([], false))
  | y :: l' =>
    pdo (a, bad) <- elem y;
    pdo (al, bad') <- decode_structs elem l';
    pret (Ok (a :: al, bad || bad'))
  end.
Definition decode_list {A} (elem : yaml -> P (A * bool)) (y : yaml) (old : list A) : P (list A * bool) :=
  match y with
  | YScalar _ GNil => pret (Ok ([], false))
  | YSeq l => decode_structs elem l
  | _ => pret (Ok (old, true))
  end.
(** a field of a struct, given how it is decoded and assigned *)
Definition part {A B} (get : A -> B) (set : A -> B -> A) (f : yaml -> B -> P (B * bool)) (y : yaml) (a : A) : P (A * bool) :=
  pdo (b, bad) <- f y (get a); pret (Ok (set a b, bad)).
(** yaml.Unmarshal: recorded errors are returned *)
Definition finish {A} (x : P (A * bool)) : P A :=
  pdo (a, bad) <- x; pret (if bad then Err else Ok a).
Definition by_name {A} (fields : list (string * A)) (name : string) : option A := assoc name fields.

Section WithLib.
Variable L : Lib.
Variable ord : order.
(** (Regexp).UnmarshalText: [None] before Go 1.21, where it does not exist; otherwise compilation *)
Variable re_text : option (string -> option (RE L)).
Notation rule := (rule L).
Notation expanded := (expanded L).

(** ConditionsTree, whose UnmarshalYAML is conditions_tree.go:22-37 *)
Definition decode_conditions (y : yaml) (old : option (node L)) : P (option (node L) * bool) :=
  let call :=
    match decode_any y with
    | None => pret Err
    | Some v => pdo t <- unmarshal_yaml_tree L ord v; pret (Ok (t, false))
    end in
  match y with
  | YScalar t v => if null_text t v then (if has_value v then pret (Ok (old, true)) else pret (Ok (None, false))) else call
  | _ => call
  end.

(** *regexp.Regexp (definitions_rule.go:111).  A mapping makes an empty Regexp, represented as nil (see [copy_rule]). *)
Definition decode_regex (y : yaml) (old : option (RE L)) : P (option (RE L) * bool) :=
  match y with
  | YScalar t v =>
    if has_value v then
      if null_text t v then pret (Ok (old, true))
      else match re_text with
           | None => pret (Ok (old, true))
           | Some f => match f t with Some r => pret (Ok (Some r, false)) | None => pret Err end
           end
    else pret (Ok (None, false))
  | YMap m => pdo (_, bad) <- decode_struct (fun _ => None) m tt; pret (Ok (None, bad))
  | YSeq _ => pret (Ok (old, true))
  end.

(** definitions_rule.go:29-37: no field has a YAML key *)
Definition empty_expanded : expanded := mkExp "" "" None false false (mkIpnet [] []) [].
Definition decode_expanded (y : yaml) : P (expanded * bool) := decode_into empty_expanded (fun _ => None) y empty_expanded.

(** definitions_rule.go:15-27 Sender, Receiver: name, type and list.  The tag "-,omitempty" names the key "-". *)
Definition side := (string * string * list expanded)%type.
Definition side_fields (name_key type_key : string) : list (string * (yaml -> side -> P (side * bool))) :=
  [(name_key, part (fun s => fst (fst s)) (fun s x => (x, snd (fst s), snd s)) (lift decode_string));
   (type_key, part (fun s => snd (fst s)) (fun s x => (fst (fst s), x, snd s)) (lift decode_string));
   ("-", part snd (fun s x => (fst (fst s), snd (fst s), x)) (decode_list decode_expanded))].
Definition decode_side (name_key type_key : string) : yaml -> side -> P (side * bool) :=
  decode_into ("", "", []) (by_name (side_fields name_key type_key)).
(** definitions_rule.go:40-50 Resource: type, name; ResourceNameRegex has no YAML key *)
Definition resource := (string * string * option (RE L))%type.
Definition decode_resource : yaml -> resource -> P (resource * bool) :=
  decode_into ("", "", None) (by_name
    [("resourceType", part (fun s => fst (fst s)) (fun s x => (x, snd (fst s), snd s)) (lift decode_string));
     ("resourceName", part (fun s => snd (fst s)) (fun s x => (fst (fst s), x, snd s)) (lift decode_string))]).

(** definitions_rule.go:92-117 Rule *)
Definition rule_fields : list (string * (yaml -> rule -> P (rule * bool))) :=
  [("ruleID", part ru_id (fun r x => mkRule x (ru_sender_name r) (ru_sender_type r) (ru_sender_list r) (ru_receiver_name r) (ru_receiver_type r) (ru_receiver_list r)
      (ru_protocol r) (ru_resource_type r) (ru_resource_name r) (ru_resource_regex r) (ru_operation r) (ru_tree r) (ru_decision r) (ru_metadata r) (ru_hash r)
      (ru_operation_regex r) (ru_converted r)) (lift decode_string));
   ("sender", part (fun r => (ru_sender_name r, ru_sender_type r, ru_sender_list r)) (fun r x => mkRule (ru_id r) (fst (fst x)) (snd (fst x)) (snd x)
      (ru_receiver_name r) (ru_receiver_type r) (ru_receiver_list r)
      (ru_protocol r) (ru_resource_type r) (ru_resource_name r) (ru_resource_regex r) (ru_operation r) (ru_tree r) (ru_decision r) (ru_metadata r) (ru_hash r)
      (ru_operation_regex r) (ru_converted r)) (decode_side "senderName" "senderType"));
   ("receiver", part (fun r => (ru_receiver_name r, ru_receiver_type r, ru_receiver_list r)) (fun r x => mkRule (ru_id r) (ru_sender_name r) (ru_sender_type r) (ru_sender_list r)
      (fst (fst x)) (snd (fst x)) (snd x)
      (ru_protocol r) (ru_resource_type r) (ru_resource_name r) (ru_resource_regex r) (ru_operation r) (ru_tree r) (ru_decision r) (ru_metadata r) (ru_hash r)
      (ru_operation_regex r) (ru_converted r)) (decode_side "receiverName" "receiverType"));
   ("protocol", part ru_protocol (fun r x => mkRule (ru_id r) (ru_sender_name r) (ru_sender_type r) (ru_sender_list r) (ru_receiver_name r) (ru_receiver_type r) (ru_receiver_list r)
      x (ru_resource_type r) (ru_resource_name r) (ru_resource_regex r) (ru_operation r) (ru_tree r) (ru_decision r) (ru_metadata r) (ru_hash r)
      (ru_operation_regex r) (ru_converted r)) (lift decode_string));
   ("resource", part (fun r => (ru_resource_type r, ru_resource_name r, ru_resource_regex r)) (fun r x => mkRule (ru_id r) (ru_sender_name r) (ru_sender_type r) (ru_sender_list r)
      (ru_receiver_name r) (ru_receiver_type r) (ru_receiver_list r)
      (ru_protocol r) (fst (fst x)) (snd (fst x)) (snd x) (ru_operation r) (ru_tree r) (ru_decision r) (ru_metadata r) (ru_hash r)
      (ru_operation_regex r) (ru_converted r)) decode_resource);
   ("operation", part ru_operation (fun r x => mkRule (ru_id r) (ru_sender_name r) (ru_sender_type r) (ru_sender_list r) (ru_receiver_name r) (ru_receiver_type r) (ru_receiver_list r)
      (ru_protocol r) (ru_resource_type r) (ru_resource_name r) (ru_resource_regex r) x (ru_tree r) (ru_decision r) (ru_metadata r) (ru_hash r)
      (ru_operation_regex r) (ru_converted r)) (lift decode_string));
   ("conditions", part ru_tree (fun r x => mkRule (ru_id r) (ru_sender_name r) (ru_sender_type r) (ru_sender_list r) (ru_receiver_name r) (ru_receiver_type r) (ru_receiver_list r)
      (ru_protocol r) (ru_resource_type r) (ru_resource_name r) (ru_resource_regex r) (ru_operation r) x (ru_decision r) (ru_metadata r) (ru_hash r)
      (ru_operation_regex r) (ru_converted r)) decode_conditions);
   ("decision", part ru_decision (fun r x => mkRule (ru_id r) (ru_sender_name r) (ru_sender_type r) (ru_sender_list r) (ru_receiver_name r) (ru_receiver_type r) (ru_receiver_list r)
      (ru_protocol r) (ru_resource_type r) (ru_resource_name r) (ru_resource_regex r) (ru_operation r) (ru_tree r) x (ru_metadata r) (ru_hash r)
      (ru_operation_regex r) (ru_converted r)) (lift decode_string));
   ("metadata", part ru_metadata (fun r x => mkRule (ru_id r) (ru_sender_name r) (ru_sender_type r) (ru_sender_list r) (ru_receiver_name r) (ru_receiver_type r) (ru_receiver_list r)
      (ru_protocol r) (ru_resource_type r) (ru_resource_name r) (ru_resource_regex r) (ru_operation r) (ru_tree r) (ru_decision r) x (ru_hash r)
      (ru_operation_regex r) (ru_converted r)) (lift (decode_map (fun y => decode_string y ""))));
   ("hash", part ru_hash (fun r x => mkRule (ru_id r) (ru_sender_name r) (ru_sender_type r) (ru_sender_list r) (ru_receiver_name r) (ru_receiver_type r) (ru_receiver_list r)
      (ru_protocol r) (ru_resource_type r) (ru_resource_name r) (ru_resource_regex r) (ru_operation r) (ru_tree r) (ru_decision r) (ru_metadata r) x
      (ru_operation_regex r) (ru_converted r)) (lift decode_string));
   ("operationRegex", part ru_operation_regex (fun r x => mkRule (ru_id r) (ru_sender_name r) (ru_sender_type r) (ru_sender_list r) (ru_receiver_name r) (ru_receiver_type r) (ru_receiver_list r)
      (ru_protocol r) (ru_resource_type r) (ru_resource_name r) (ru_resource_regex r) (ru_operation r) (ru_tree r) (ru_decision r) (ru_metadata r) (ru_hash r)
      x (ru_converted r)) decode_regex);
   ("-", part ru_converted (fun r x => mkRule (ru_id r) (ru_sender_name r) (ru_sender_type r) (ru_sender_list r) (ru_receiver_name r) (ru_receiver_type r) (ru_receiver_list r)
      (ru_protocol r) (ru_resource_type r) (ru_resource_name r) (ru_resource_regex r) (ru_operation r) (ru_tree r) (ru_decision r) (ru_metadata r) (ru_hash r)
      (ru_operation_regex r) x) (lift decode_bool))].
Definition decode_rule (y : yaml) : P (rule * bool) := decode_into (empty_rule L) (by_name rule_fields) y (empty_rule L).
(** definitions_rule.go:120-122 Rules *)
Definition decode_rules (y : yaml) : P (list rule * bool) :=
  decode_into [] (by_name [("rules", decode_list decode_rule)]) y [].

(** rules_load.go:28-44 YamlReadRulesFromString on the parsed text *)
Definition read_rules (y : yaml) : P (list rule) := finish (decode_rules y).
(** rules_load.go:98-120 YamlReadRulesFromStringWithPredefinedStrings *)
Definition read_rules_with (p : predef) (y : yaml) : P (list (rstate L)) :=
  pdo rs <- read_rules y; load_with_predefined L ord p rs.
(** rules_load.go:46-62 YamlReadRulesFromFile, 122-138 YamlReadRulesFromFileWithPredefinedStrings; [None]: the file
    cannot be read or is not YAML *)
Definition read_rules_file (file : option yaml) : P (list rule) :=
  match file with
  | None => pret Err
  | Some y => if test_yaml y then read_rules y else pret Err
  end.
Definition read_rules_file_with (p : predef) (file : option yaml) : P (list (rstate L)) :=
  match file with
  | None => pret Err
  | Some y => if test_yaml y then read_rules_with p y else pret Err
  end.

End WithLib.

(** ** Dictionaries *)
Definition decode_strings (y : yaml) : list string * bool := decode_slice (fun y => decode_string y "") y [].
(** definitions_lists.go:3-7 *)
Definition predef_fields : list (string * (yaml -> predef -> P (predef * bool))) :=
  [("predefinedStrings", part p_strings (fun p x => mkPredef x (p_lists p) (p_resolved p)) (lift (decode_map (fun y => decode_string y ""))));
   ("predefinedLists", part p_lists (fun p x => mkPredef (p_strings p) x (p_resolved p)) (lift (decode_map decode_strings)));
   ("-", part p_resolved (fun p x => mkPredef (p_strings p) (p_lists p) x) (lift (decode_map decode_strings)))].
Definition decode_predef (y : yaml) : P (predef * bool) := decode_into empty_predef (by_name predef_fields) y empty_predef.
(** predefined_lists_load.go:11-27 YamlReadStringListsFromString *)
Definition read_predef (y : yaml) : P predef :=
  pdo p <- finish (decode_predef y); pret (validate_predef p).

(** ** Messages *)
(** *interface{} (definitions_message.go:50-51).  A scalar that is null without looking so (as Null) is a pointer to nil. *)
Definition decode_interface (y : yaml) (old : option iface) : P (option iface * bool) :=
  match y with
  | YScalar t v => if null_text t v then pret (Ok (if has_value v then (old, true) else (None, false))) else pret (Ok (Some v, false))
  | _ => match decode_any y with Some v => pret (Ok (Some v, false)) | None => pret Err end
  end.

(** The struct while it is filled: its string fields by key, and the others. *)
Record fields := mkFields {
  f_texts : list (string * string);
  f_size : Z;
  f_version : option f64;
  f_json : option string; f_json_rel : option string;
  f_raw : option iface; f_raw_rel : option iface
}.
Definition no_fields : fields := mkFields [] 0%Z None None None None None.
Definition text_of (d : fields) (k : string) : string := match assoc k (f_texts d) with Some s => s | None => "" end.
(** definitions_message.go:14-53; the fields of lines 55-62 have no key *)
Definition text_keys : list string :=
  ["sender_ip"; "sender_namespace"; "sender_cluster"; "receiver_ip"; "receiver_port"; "receiver_namespace"; "receiver_cluster"; "request_path";
   "request_host"; "request_method"; "request_time"; "request_user_agent"; "request_protocol"; "message_id"; "sender_service"; "receiver_service";
   "sender_labels"; "receiver_labels"; "request_type"; "encryption_type"; "domain"].
Definition text_field (k : string) : yaml -> fields -> P (fields * bool) :=
  part (fun d => text_of d k)
    (fun d x => mkFields (upsert k x (f_texts d)) (f_size d) (f_version d) (f_json d) (f_json_rel d) (f_raw d) (f_raw_rel d)) (lift decode_string).
Definition message_field (k : string) : option (yaml -> fields -> P (fields * bool)) :=
  if is_any k text_keys then Some (text_field k)
  else by_name
    [("request_size", part f_size (fun d x => mkFields (f_texts d) x (f_version d) (f_json d) (f_json_rel d) (f_raw d) (f_raw_rel d)) (lift decode_int));
     ("encryption_version", part f_version (fun d x => mkFields (f_texts d) (f_size d) x (f_json d) (f_json_rel d) (f_raw d) (f_raw_rel d)) (lift decode_float));
     ("json_raw", part f_json (fun d x => mkFields (f_texts d) (f_size d) (f_version d) x (f_json_rel d) (f_raw d) (f_raw_rel d)) (lift decode_bytes));
     ("json_raw_relative", part f_json_rel (fun d x => mkFields (f_texts d) (f_size d) (f_version d) (f_json d) x (f_raw d) (f_raw_rel d)) (lift decode_bytes));
     ("interface_raw", part f_raw (fun d x => mkFields (f_texts d) (f_size d) (f_version d) (f_json d) (f_json_rel d) x (f_raw_rel d)) decode_interface);
     ("interface_raw_relative", part f_raw_rel (fun d x => mkFields (f_texts d) (f_size d) (f_version d) (f_json d) (f_json_rel d) (f_raw d) x) decode_interface)] k.
Definition message_of (d : fields) : message :=
  mkMessage (text_of d "sender_ip") (text_of d "sender_namespace") (text_of d "sender_cluster") (text_of d "receiver_ip") (text_of d "receiver_port")
    (text_of d "receiver_namespace") (text_of d "receiver_cluster") (text_of d "request_path") (text_of d "request_host") (text_of d "request_method")
    (f_size d) (text_of d "request_time") (text_of d "request_user_agent") (text_of d "request_protocol") (text_of d "message_id")
    (text_of d "sender_service") (text_of d "receiver_service") (text_of d "sender_labels") (text_of d "receiver_labels") (text_of d "request_type")
    (text_of d "encryption_type") (f_version d) (f_json d) (f_json_rel d) (f_raw d) (f_raw_rel d) (text_of d "domain")
    f_zero f_zero f_zero [] [] [] [].
Definition decode_message (y : yaml) : P (message * bool) :=
  pdo (d, bad) <- decode_into no_fields message_field y no_fields; pret (Ok (message_of d, bad)).
(** definitions_message.go:67-69 Messages *)
Definition decode_messages (y : yaml) : P (list message * bool) :=
  decode_into [] (by_name [("messages", decode_list decode_message)]) y [].

(** messages_load.go:38-56 YamlReadMessagesFromString *)
Definition read_messages (L : Lib) (y : yaml) : P (list message) :=
  pdo ms <- finish (decode_messages y); pret (complete_messages L ms).
(** messages_load.go:15-35 YamlReadMessageAttributes; [text] is the text of the document [y] *)
Definition read_message (L : Lib) (y : yaml) (text : string) : P message :=
  fun t => match finish (decode_message y) t with
           | (Ok m, t') => (yaml_read_message L (Some m) text, t')
           | (Err, t') => (yaml_read_message L None text, t')
           | (Panic, t') => (Panic, t')
           end.
(** messages_load.go:59-71 YamlReadMessagesFromFile: there is no testYaml here; [None]: the file cannot be read or is not YAML *)
Definition read_messages_file (L : Lib) (file : option yaml) : P (list message) :=
  match file with
  | None => pret Err
  | Some y => read_messages L y
  end.
