(** JSON text of trees and the JSON deep copy of a rule: conditions_tree.go:22-95, 259-289, 470-500,
    definitions_rule.go:284-317, deepcopy.v1 (Marshal followed by Unmarshal). *)
From Coq Require Import List String Ascii Bool Arith ZArith.
From Verif Require Import Base GoStr GoFloat Types Json StrUtils Validate Prepare Parse.
Import ListNotations.
Open Scope string_scope.

Section WithLib.
Variable L : Lib.
Variable ord : order.
Notation cond := (cond L).
Notation node := (node L).
Notation rule := (rule L).

Definition quoted (s : string) : string := dqs ++ s ++ dqs.

(** json.Marshal of a map[string]string *)
Definition string_map_json (m : list (string * string)) : string :=
  match json_marshal L (GMapS (map (fun kv => (fst kv, GStr (snd kv))) m)) with
  | Some s => s
  | None => ""    (* unreachable: strings always marshal *)
  end.

(** the original if it is not empty (definitions_rule.go:287-289 etc.) *)
Definition original_or (orig now : string) : string :=
  if String.eqb orig "" then now else orig.

Definition orig_ret (r : retpart L) : option (list (string * string)) :=
  match r_orig r with
  | Some (x :: l) => Some (x :: l)
  | _ => r_paths r
  end.

(** definitions_rule.go:290-291: backslashes then double quotes are escaped, nothing else *)
Definition escape_text (s : string) : string :=
  replace_all (replace_all s bss (bss ++ bss)) dqs (bss ++ dqs).

(** definitions_rule.go:284-317 (Condition).MarshalJSON *)
Definition cond_json (c : cond) : string :=
  let attr := escape_text (original_or (og_attr (c_orig c)) (c_attr c)) in
  let method := original_or (og_method (c_orig c)) (c_method c) in
  let value := escape_text (original_or (og_value (c_orig c)) (c_value c)) in
  "{" ++ quoted "condition" ++ ":{" ++ quoted "attribute" ++ ":" ++ quoted attr ++ ","
      ++ quoted "method" ++ ":" ++ quoted method ++ "," ++ quoted "value" ++ ":" ++ quoted value
      ++ (match orig_ret (c_ret c) with
          | None => ""
          | Some m => "," ++ quoted "returnValueJsonpath" ++ ":" ++ string_map_json m
          end) ++ "}}".

(** conditions_tree.go:259-289 (Any), 470-500 (All): MarshalJSON around the inner text.
    The parent path is not escaped. *)
Definition aa_json (q : quant) (a : aanode L) (inner : string) : string :=
  "{" ++ quoted (match q with QAny => "ANY" | QAll => "ALL" end) ++ ":{"
      ++ quoted "parentJsonpathAttribute" ++ ":" ++ quoted (original_or (a_orig a) (a_parent a)) ++ ","
      ++ (match orig_ret (a_ret a) with
          | None | Some [] => ""
          | Some m => quoted "returnValueJsonpath" ++ ":" ++ string_map_json m ++ ","
          end)
      ++ quoted "condition" ++ ":" ++ inner ++ "}}".

(** encoding/json checks the output of a MarshalJSON method.  Simplification: compaction of the text
    (white space, HTML escaping) is left out here, see [checked_out] in JsonDoc.v and C71; validity
    is decidability by the JSON decoder of the model. *)
Definition checked (s : string) : res string :=
  if is_some (json_parse L s) then Ok s else Err.

(** json.Marshal(Node).  And, Or, Not are plain structs with omitempty (conditions_tree.go:121-123,
    182-184, 222-224); True and False are empty structs. *)
Fixpoint node_json (n : node) : res string :=
  match n with
  | NAnd [] | NOr [] => Ok "{}"
  | NAnd ns => do xs <- rseq (map node_json ns);
               Ok ("{" ++ quoted "AND" ++ ":[" ++ join "," xs ++ "]}")
  | NOr ns => do xs <- rseq (map node_json ns);
              Ok ("{" ++ quoted "OR" ++ ":[" ++ join "," xs ++ "]}")
  | NNot NNil => Ok "{}"
  | NNot n' => do x <- node_json n'; Ok ("{" ++ quoted "NOT" ++ ":" ++ x ++ "}")
  | NQuant q a n' => do x <- node_json n'; checked (aa_json q a x)
  | NTrue | NFalse => Ok "{}"
  | NCond c => checked (cond_json c)
  | NNil => Ok "null"
  end.

(** json.Marshal(ConditionsTree) (conditions_tree.go:18-20, omitempty) *)
Definition tree_json (t : option node) : res string :=
  match t with
  | None | Some NNil => Ok "{}"
  | Some n => do x <- node_json n; Ok ("{" ++ quoted "conditionsTree" ++ ":" ++ x ++ "}")
  end.

(** the tree after Marshal and Unmarshal *)
Definition copy_tree (t : option node) : P (option node) :=
  pdo s <- pret (tree_json t); unmarshal_json_tree L ord s.

(** net.IP written as text and read by ParseIP: IPv4 addresses come back in 16 bytes (net/ip.go) *)
Definition ip_json (i : ip) : ip :=
  if (List.length i =? 4)%nat then ([0; 0; 0; 0; 0; 0; 0; 0; 0; 0; 255; 255] ++ i)%Z%list else i.
Definition ipnet_json (n : ipnet) : ipnet := mkIpnet (ip_json (n_ip n)) (n_mask n).

(** definitions_rule.go:29-37 written and read *)
Definition regex_json (r : option (RE L)) : option (RE L) :=
  match r with Some x => re_json L x | None => None end.
Definition expanded_json (x : expanded L) : expanded L :=
  mkExp (x_name x) (x_type x) (regex_json (x_regexp x)) (x_is_ip x) (x_is_cidr x) (ipnet_json (x_cidr x)) (ip_json (x_ip x)).

(** deepcopy.Copy of a rule.  The json tags "-,omitempty" of the derived fields (definitions_rule.go:20,
    27, 50, 112) name the key "-", which is the only such key of its struct, so these fields are
    copied; likewise OperationRegex (111).  A regular expression that was copied to an empty Regexp is
    represented as nil: using either one panics.
    Simplifications: a plain string field is copied as it is, see [copy_text] in JsonDoc.v and C71 for the text;
    private fields are not copied. *)
Definition copy_rule (r : rule) : P rule :=
  pdo t <- copy_tree (ru_tree r);
  pret (Ok (mkRule (ru_id r) (ru_sender_name r) (ru_sender_type r) (map expanded_json (ru_sender_list r))
              (ru_receiver_name r) (ru_receiver_type r) (map expanded_json (ru_receiver_list r))
              (ru_protocol r) (ru_resource_type r) (ru_resource_name r) (regex_json (ru_resource_regex r))
              (ru_operation r) t (ru_decision r) (ru_metadata r) (ru_hash r) (regex_json (ru_operation_regex r))
              (ru_converted r))).

End WithLib.
