(** Rules as JSON documents: reading them (json.Unmarshal into Rules or Rule, unmarshal_test.go:37-40, deepcopy.v1) with
    the struct tags of definitions_rule.go:15-121 and ConditionsTree.UnmarshalJSON (conditions_tree.go:39-63), writing a
    rule (json.Marshal in deepcopy.v1, called at rules_load.go:68-71), and the copy that results.  The decoder is that of
    encoding/json (decode.go) for the types that occur there. *)
From Coq Require Import List String Ascii Bool Arith ZArith.
From Verif Require Import Base GoStr GoFloat Types Json StrUtils Validate Prepare Parse Marshal Lifecycle.
Import ListNotations.
Open Scope string_scope.

(** ** Documents *)
(** A JSON text that has been scanned: strings, arrays and objects come with their text, which is what an
    UnmarshalJSON method is given. *)
Inductive json : Type :=
| JNull
| JBool (b : bool)
| JNum (raw : string)
| JStr (raw : string) (s : string)
| JArr (raw : string) (l : list json)
| JObj (raw : string) (m : list (string * json)).
Definition raw_of (j : json) : string :=
  match j with
  | JNull => "null"
  | JBool b => if b then "true" else "false"
  | JNum raw | JStr raw _ | JArr raw _ | JObj raw _ => raw
  end.

(** the part of [s] before its end [r] *)
Definition upto (s r : string) : string := substring 0 (String.length s - String.length r) s.

(** encoding/json scanner.go and decode.go.  Simplifications as in [parse_value]; numbers stay texts. *)
Fixpoint read_value (fuel : nat) (s : string) : option (json * string) :=
  match fuel with
  | O => None
  | S f =>
    match skip_ws s with
    | EmptyString => None
    | String c s' =>
      if Ascii.eqb c "{" then
        match starts_with "}" (skip_ws s') with
        | Some r => Some (JObj (upto (String c s') r) [], r)
        | None => match read_members f s' with
                  | Some (m, r) => Some (JObj (upto (String c s') r) m, r)
                  | None => None
                  end
        end
      else if Ascii.eqb c "[" then
        match starts_with "]" (skip_ws s') with
        | Some r => Some (JArr (upto (String c s') r) [], r)
        | None => match read_elems f s' with
                  | Some (l, r) => Some (JArr (upto (String c s') r) l, r)
                  | None => None
                  end
        end
      else if Ascii.eqb c dq then
        match parse_str s' with
        | Some (x, r) => Some (JStr (upto (String c s') r) x, r)
        | None => None
        end
      else if has_prefix (String c s') "true" then Some (JBool true, drop 4 (String c s'))
      else if has_prefix (String c s') "false" then Some (JBool false, drop 5 (String c s'))
      else if has_prefix (String c s') "null" then Some (JNull, drop 4 (String c s'))
      else match lex_number (String c s') with
           | Some (t, r) => Some (JNum t, r)
           | None => None
           end
    end
  end
with read_elems (fuel : nat) (s : string) : option (list json * string) :=
  match fuel with
  | O => None
  | S f =>
    match read_value f s with
    | None => None
    | Some (v, r) =>
      match skip_ws r with
      | String c r' =>
        if Ascii.eqb c "]" then Some ([v], r')
        else if Ascii.eqb c "," then
          match read_elems f r' with
          | Some (vs, r'') => Some (v :: vs, r'')
          | None => None
          end
        else None
      | EmptyString => None
      end
    end
  end
with read_members (fuel : nat) (s : string) : option (list (string * json) * string) :=
  match fuel with
  | O => None
  | S f =>
    match starts_with dq (skip_ws s) with
    | None => None
    | Some s1 =>
      match parse_str s1 with
      | None => None
      | Some (k, s2) =>
        match starts_with ":" (skip_ws s2) with
        | None => None
        | Some s3 =>
          match read_value f s3 with
          | None => None
          | Some (v, r) =>
            match skip_ws r with
            | String c r' =>
              if Ascii.eqb c "}" then Some ([(k, v)], r')
              else if Ascii.eqb c "," then
                match read_members f r' with
                | Some (m, r'') => Some ((k, v) :: m, r'')
                | None => None
                end
              else None
            | EmptyString => None
            end
          end
        end
      end
    end
  end.
(** checkValid, which json.Unmarshal calls first, with the document *)
Definition json_read (s : string) : option json :=
  match read_value (2 * String.length s + 2) s with
  | Some (j, r) => match skip_ws r with EmptyString => Some j | _ => None end
  | None => None
  end.

(** ** Decoding.  A value of the wrong type is recorded as an error and skipped; null leaves a string, a bool or a
    struct as it is.  The result is the new value and whether an error was recorded. *)
Definition jd_string (j : json) (old : string) : string * bool :=
  match j with JNull => (old, false) | JStr _ s => (s, false) | _ => (old, true) end.
Definition jd_bool (j : json) (old : bool) : bool * bool :=
  match j with JNull => (old, false) | JBool b => (b, false) | _ => (old, true) end.
(** map[string]string: entries are added to the map there is; the value null is the empty text *)
Fixpoint jd_entries (m : list (string * json)) (old : list (string * string)) : list (string * string) * bool :=
  match m with
  | [] => (old, false)
  | (k, j) :: m' =>
    let (s, bad) := jd_string j "" in
    let (res, bad') := jd_entries m' (upsert k s old) in
    (res, bad || bad')
  end.
Definition jd_map (j : json) (old : list (string * string)) : list (string * string) * bool :=
  match j with JNull => ([], false) | JObj _ m => jd_entries m old | _ => (old, true) end.

(** ** Structs *)
Definition jd_lift {A} (f : json -> A -> A * bool) (j : json) (old : A) : P (A * bool) := pret (Ok (f j old)).
Definition jd_part {A B} (get : A -> B) (set : A -> B -> A) (f : json -> B -> P (B * bool)) (j : json) (a : A) : P (A * bool) :=
  pdo (b, bad) <- f j (get a); pret (Ok (set a b, bad)).
(** decode.go object: the field with the name of the key, otherwise the first whose name differs in case only
    (fold.go; the names are ASCII). *)
Definition jd_field {A} (fields : list (string * A)) (key : string) : option A :=
  match assoc key fields with
  | Some f => Some f
  | None => option_map snd (find (fun e => equal_fold (fst e) key) fields)
  end.
(** entry by entry; unknown keys are skipped *)
Fixpoint jd_members {A} (fields : list (string * (json -> A -> P (A * bool)))) (m : list (string * json)) (a : A) : P (A * bool) :=
  match m with
  | [] => pret (Ok (a, false))
  | (k, j) :: m' =>
    match jd_field fields k with
    | None => jd_members fields m' a
    | Some f =>
      pdo (a1, bad1) <- f j a;
      pdo (a2, bad2) <- jd_members fields m' a1;
      pret (Ok (a2, bad1 || bad2))
    end
  end.
Definition jd_struct {A} (fields : list (string * (json -> A -> P (A * bool)))) (j : json) (old : A) : P (A * bool) :=
  match j with
  | JNull => pret (Ok (old, false))
  | JObj _ m => jd_members fields m old
  | _ => pret (Ok (old, true))
  end.
(** slices.  Simplification: elements of an array that is read over another one (a repeated key) start empty. *)
Fixpoint jd_items {A} (elem : json -> P (A * bool)) (l : list json) : P (list A * bool) :=
  match l with
  | [] => pret (Ok ([], false))
  | j :: l' =>
    pdo (a, bad) <- elem j;
    pdo (al, bad') <- jd_items elem l';
    pret (Ok (a :: al, bad || bad'))
  end.
Definition jd_slice {A} (elem : json -> P (A * bool)) (j : json) (old : list A) : P (list A * bool) :=
  match j with
  | JNull => pret (Ok ([], false))
  | JArr _ l => jd_items elem l
  | _ => pret (Ok (old, true))
  end.
(** json.Unmarshal: recorded errors are returned *)
Definition jd_finish {A} (x : P (A * bool)) : P A :=
  pdo (a, bad) <- x; pret (if bad then Err else Ok a).

(** encoding/json indent.go compact with escape: spaces outside of strings are dropped, and <, > and & escaped.
    Simplification: ASCII. *)
Fixpoint compact (in_string : bool) (s : string) : string :=
  match s with
  | EmptyString => ""
  | String c s' =>
    if in_string then
      if Ascii.eqb c dq then String c (compact false s')
      else if Ascii.eqb c bslash then
        match s' with
        | EmptyString => String c ""
        | String d s'' => String c (String d (compact true s''))
        end
      else (if existsb (Ascii.eqb c) ["<"; ">"; "&"]%char then json_escape_char c else String c "") ++ compact true s'
    else if is_json_ws c then compact false s'
    else String c (compact (Ascii.eqb c dq) s')
  end.

Section WithLib.
Variable L : Lib.
Variable ord : order.
(** (Regexp).UnmarshalText: [None] before Go 1.21, where it does not exist; otherwise compilation *)
Variable re_text : option (string -> option (RE L)).
(** an element of SenderList or ReceiverList (definitions_rule.go:29-37) read and the lists and expressions written:
    net.IP, net.IPNet and Regexp have their own texts, which are not modelled *)
Variable exp_in : json -> P (expanded L * bool).
Variable exps_out : list (expanded L) -> string.
Variable re_out : RE L -> string.
Notation rule := (rule L).
Notation expanded := (expanded L).

(** conditions_tree.go:39-63, called with the text of the value, also when it is null *)
Definition jd_conditions (j : json) (old : option (node L)) : P (option (node L) * bool) :=
  pdo t <- unmarshal_json_tree L ord (raw_of j); pret (Ok (t, false)).

(** *regexp.Regexp.  An object makes an empty Regexp before Go 1.21, represented as nil (see [copy_rule]). *)
Definition jd_regex (j : json) (old : option (RE L)) : P (option (RE L) * bool) :=
  match j, re_text with
  | JNull, _ => pret (Ok (None, false))
  | JStr _ s, Some f => match f s with Some r => pret (Ok (Some r, false)) | None => pret Err end
  | JObj _ _, None => pret (Ok (None, false))
  | _, _ => pret (Ok (old, true))
  end.

(** definitions_rule.go:15-27 Sender, Receiver: name, type and list.  The tag "-,omitempty" names the key "-". *)
Definition jside := (string * string * list expanded)%type.
Definition jside_fields (name_key type_key : string) : list (string * (json -> jside -> P (jside * bool))) :=
  [(name_key, jd_part (fun s => fst (fst s)) (fun s x => (x, snd (fst s), snd s)) (jd_lift jd_string));
   (type_key, jd_part (fun s => snd (fst s)) (fun s x => (fst (fst s), x, snd s)) (jd_lift jd_string));
   ("-", jd_part snd (fun s x => (fst (fst s), snd (fst s), x)) (jd_slice exp_in))].
(** definitions_rule.go:40-50 Resource: type, name and ResourceNameRegex *)
Definition jresource := (string * string * option (RE L))%type.
Definition jresource_fields : list (string * (json -> jresource -> P (jresource * bool))) :=
  [("resourceType", jd_part (fun s => fst (fst s)) (fun s x => (x, snd (fst s), snd s)) (jd_lift jd_string));
   ("resourceName", jd_part (fun s => snd (fst s)) (fun s x => (fst (fst s), x, snd s)) (jd_lift jd_string));
   ("-", jd_part snd (fun s x => (fst (fst s), snd (fst s), x)) jd_regex)].

(** definitions_rule.go:92-117 Rule, as its fields one by one *)
Definition jrule_fields : list (string * (json -> rule -> P (rule * bool))) :=
  let upd (r : rule) id snd_ rcv pr res op tr de me ha ore co :=
    mkRule id (fst (fst snd_)) (snd (fst snd_)) (snd snd_) (fst (fst rcv)) (snd (fst rcv)) (snd rcv) pr
      (fst (fst res)) (snd (fst res)) (snd res) op tr de me ha ore co in
  let sender r := (ru_sender_name r, ru_sender_type r, ru_sender_list r) in
  let receiver r := (ru_receiver_name r, ru_receiver_type r, ru_receiver_list r) in
  let resource r := (ru_resource_type r, ru_resource_name r, ru_resource_regex r) in
  [("ruleID", jd_part ru_id (fun r x => upd r x (sender r) (receiver r) (ru_protocol r) (resource r) (ru_operation r) (ru_tree r) (ru_decision r) (ru_metadata r) (ru_hash r) (ru_operation_regex r) (ru_converted r)) (jd_lift jd_string));
   ("sender", jd_part sender (fun r x => upd r (ru_id r) x (receiver r) (ru_protocol r) (resource r) (ru_operation r) (ru_tree r) (ru_decision r) (ru_metadata r) (ru_hash r) (ru_operation_regex r) (ru_converted r)) (jd_struct (jside_fields "senderName" "senderType")));
   ("receiver", jd_part receiver (fun r x => upd r (ru_id r) (sender r) x (ru_protocol r) (resource r) (ru_operation r) (ru_tree r) (ru_decision r) (ru_metadata r) (ru_hash r) (ru_operation_regex r) (ru_converted r)) (jd_struct (jside_fields "receiverName" "receiverType")));
   ("protocol", jd_part ru_protocol (fun r x => upd r (ru_id r) (sender r) (receiver r) x (resource r) (ru_operation r) (ru_tree r) (ru_decision r) (ru_metadata r) (ru_hash r) (ru_operation_regex r) (ru_converted r)) (jd_lift jd_string));
   ("resource", jd_part resource (fun r x => upd r (ru_id r) (sender r) (receiver r) (ru_protocol r) x (ru_operation r) (ru_tree r) (ru_decision r) (ru_metadata r) (ru_hash r) (ru_operation_regex r) (ru_converted r)) (jd_struct jresource_fields));
   ("operation", jd_part ru_operation (fun r x => upd r (ru_id r) (sender r) (receiver r) (ru_protocol r) (resource r) x (ru_tree r) (ru_decision r) (ru_metadata r) (ru_hash r) (ru_operation_regex r) (ru_converted r)) (jd_lift jd_string));
   ("conditions", jd_part ru_tree (fun r x => upd r (ru_id r) (sender r) (receiver r) (ru_protocol r) (resource r) (ru_operation r) x (ru_decision r) (ru_metadata r) (ru_hash r) (ru_operation_regex r) (ru_converted r)) jd_conditions);
   ("decision", jd_part ru_decision (fun r x => upd r (ru_id r) (sender r) (receiver r) (ru_protocol r) (resource r) (ru_operation r) (ru_tree r) x (ru_metadata r) (ru_hash r) (ru_operation_regex r) (ru_converted r)) (jd_lift jd_string));
   ("metadata", jd_part ru_metadata (fun r x => upd r (ru_id r) (sender r) (receiver r) (ru_protocol r) (resource r) (ru_operation r) (ru_tree r) (ru_decision r) x (ru_hash r) (ru_operation_regex r) (ru_converted r)) (jd_lift jd_map));
   ("hash", jd_part ru_hash (fun r x => upd r (ru_id r) (sender r) (receiver r) (ru_protocol r) (resource r) (ru_operation r) (ru_tree r) (ru_decision r) (ru_metadata r) x (ru_operation_regex r) (ru_converted r)) (jd_lift jd_string));
   ("operationRegex", jd_part ru_operation_regex (fun r x => upd r (ru_id r) (sender r) (receiver r) (ru_protocol r) (resource r) (ru_operation r) (ru_tree r) (ru_decision r) (ru_metadata r) (ru_hash r) x (ru_converted r)) jd_regex);
   ("-", jd_part ru_converted (fun r x => upd r (ru_id r) (sender r) (receiver r) (ru_protocol r) (resource r) (ru_operation r) (ru_tree r) (ru_decision r) (ru_metadata r) (ru_hash r) (ru_operation_regex r) x) (jd_lift jd_bool))].
Definition jd_rule (j : json) : P (rule * bool) := jd_struct jrule_fields j (empty_rule L).
(** definitions_rule.go:120-122 Rules *)
Definition jd_rules (j : json) : P (list rule * bool) := jd_struct [("rules", jd_slice jd_rule)] j [].

(** json.Unmarshal(text, &rules) and json.Unmarshal(text, &rule) with new variables *)
Definition json_rules (text : string) : P (list rule) :=
  match json_read text with
  | None => pret Err
  | Some j => jd_finish (jd_rules j)
  end.
Definition json_rule (text : string) : P rule :=
  match json_read text with
  | None => pret Err
  | Some j => jd_finish (jd_rule j)
  end.

(** ** Writing trees *)
(** the output of a MarshalJSON method is checked and compacted (encoding/json encode.go marshalerEncoder, indent.go compact) *)
Definition checked_out (s : string) : res string := do x <- checked L s; Ok (compact false x).
(** [node_json] and [tree_json] (Marshal.v) with compaction *)
Fixpoint node_out (n : node L) : res string :=
  match n with
  | NAnd [] | NOr [] => Ok "{}"
  | NAnd ns => do xs <- rseq (map node_out ns);
               Ok ("{" ++ quoted "AND" ++ ":[" ++ join "," xs ++ "]}")
  | NOr ns => do xs <- rseq (map node_out ns);
              Ok ("{" ++ quoted "OR" ++ ":[" ++ join "," xs ++ "]}")
  | NNot NNil => Ok "{}"
  | NNot n' => do x <- node_out n'; Ok ("{" ++ quoted "NOT" ++ ":" ++ x ++ "}")
  | NQuant q a n' => do x <- node_out n'; checked_out (aa_json L q a x)
  | NTrue | NFalse => Ok "{}"
  | NCond c => checked_out (cond_json L c)
  | NNil => Ok "null"
  end.
Definition tree_out (t : option (node L)) : res string :=
  match t with
  | None | Some NNil => Ok "{}"
  | Some n => do x <- node_out n; Ok ("{" ++ quoted "conditionsTree" ++ ":" ++ x ++ "}")
  end.

(** ** Writing a rule: json.Marshal(rule), fields in the order of definitions_rule.go:92-117, empty ones left out *)
Definition out_field (k text : string) : list string := [quoted k ++ ":" ++ text].
Definition out_text (k s : string) : list string := if String.eqb s "" then [] else out_field k (json_string s).
Definition out_object (fields : list string) : string := "{" ++ join "," fields ++ "}".
Definition out_list (l : list expanded) : list string := match l with [] => [] | _ => out_field "-" (exps_out l) end.
Definition out_regex (k : string) (r : option (RE L)) : list string := match r with None => [] | Some x => out_field k (re_out x) end.
Definition out_side (name_key type_key name typ : string) (l : list expanded) : string :=
  out_object (out_text name_key name ++ out_text type_key typ ++ out_list l).
Definition rule_out (r : rule) : res string :=
  do t <- tree_out (ru_tree r);
  Ok (out_object (
    out_text "ruleID" (ru_id r) ++
    out_field "sender" (out_side "senderName" "senderType" (ru_sender_name r) (ru_sender_type r) (ru_sender_list r)) ++
    out_field "receiver" (out_side "receiverName" "receiverType" (ru_receiver_name r) (ru_receiver_type r) (ru_receiver_list r)) ++
    out_text "protocol" (ru_protocol r) ++
    out_field "resource" (out_object (out_text "resourceType" (ru_resource_type r) ++ out_text "resourceName" (ru_resource_name r) ++ out_regex "-" (ru_resource_regex r))) ++
    out_text "operation" (ru_operation r) ++
    out_field "conditions" t ++
    out_text "decision" (ru_decision r) ++
    (match ru_metadata r with [] => [] | m => out_field "metadata" (string_map_json L m) end) ++
    out_text "hash" (ru_hash r) ++
    out_regex "operationRegex" (ru_operation_regex r) ++
    (if ru_converted r then out_field "-" "true" else [])))%list.

(** deepcopy.v1 Copy: Marshal, then Unmarshal into a new rule *)
Definition copy_text (r : rule) : P rule := pdo s <- pret (rule_out r); json_rule s.

End WithLib.
