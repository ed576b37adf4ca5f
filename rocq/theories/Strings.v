(** Textual forms of rules and conditions, hashes and comparison: conditions_tree.go:152-177, 215-217,
    239-242, 401-412, 570-581, 638-640, 658-660, definitions_rule.go:241-282, rules_load.go:498-549,
    tools.go:124-160 *)
From Coq Require Import List String Ascii Bool Arith ZArith.
From Verif Require Import Base GoStr GoFloat Types Json StrUtils Validate Prepare Parse Marshal.
Import ListNotations.
Open Scope string_scope.

(** fmt "%v" of a map[string]string: sorted by key; a nil map prints as an empty one *)
Definition strings_fmt (m : option (list (string * string))) : string :=
  "map[" ++ join " " (map (fun kv => fst kv ++ ":" ++ snd kv)
                          (sort_keys (match m with Some l => l | None => [] end))) ++ "]".

Section WithLib.
Variable L : Lib.
Notation cond := (cond L).
Notation node := (node L).
Notation rule := (rule L).

(** definitions_rule.go:265-282 (Condition).String: the original texts if there are any *)
Definition cond_string (c : cond) : string :=
  "<" ++ original_or (og_attr (c_orig c)) (c_attr c) ++ "-" ++ original_or (og_method (c_orig c)) (c_method c)
      ++ "-" ++ original_or (og_value (c_orig c)) (c_value c) ++ ">".

(** conditions_tree.go:156-177 AndOrString on the texts of the children *)
Definition and_or_string (sep : string) (xs : list string) : string :=
  match xs with
  | [x] => x
  | _ => "(" ++ join sep (sort_strings xs) ++ ")"
  end.

(** conditions_tree.go:401-412 (Any), 570-581 (All) around the inner text *)
Definition quant_string (q : quant) (a : aanode L) (inner : string) : string :=
  "[" ++ (match q with QAny => "ANY" | QAll => "ALL" end) ++ "<" ++ original_or (a_orig a) (a_parent a)
      ++ ";" ++ strings_fmt (orig_ret L (a_ret a)) ++ ">:" ++ inner ++ "]".

(** String: conditions_tree.go:152-154 (And), 215-217 (Or), 239-242 (Not), 401-412 (Any), 570-581 (All),
    638-640 (True), 658-660 (False); [None] is the panic of a call on a nil node *)
Fixpoint node_string (n : node) : option string :=
  match n with
  | NAnd ns => option_map (and_or_string " && ") (all_some (map node_string ns))
  | NOr ns => option_map (and_or_string " || ") (all_some (map node_string ns))
  | NNot n' => option_map (fun s => "!(" ++ s ++ ")") (node_string n')
  | NQuant q a n' => option_map (quant_string q a) (node_string n')
  | NTrue => Some "true"
  | NFalse => Some "false"
  | NCond c => Some (cond_string c)
  | NNil => None
  end.

(** rules_load.go:511-518 RuleConditionsToString *)
Definition conditions_string (r : rule) : option string :=
  match ru_tree r with
  | Some n => node_string n
  | None => Some "no conditions"
  end.

(** rules_load.go:498-510 RuleToString, (Rule).String *)
Definition rule_string (r : rule) : option string :=
  option_map (fun c =>
    ("<" ++ to_lower (ru_decision r) ++ ">-<" ++ to_lower (ru_sender_type r) ++ ":" ++ ru_sender_name r
         ++ ">-<" ++ to_lower (ru_receiver_type r) ++ ":" ++ ru_receiver_name r ++ ">-" ++ to_lower (ru_operation r)
         ++ "-" ++ to_lower (ru_protocol r) ++ "-<" ++ ru_resource_type r ++ "-" ++ ru_resource_name r ++ ">")
    ++ "-" ++ c) (conditions_string r).

(** rules_load.go:520-527 RuleMD5Hash, 529-536 RuleMD5HashConditions *)
Definition rule_hash (r : rule) : option string := option_map (md5hex L) (rule_string r).
Definition conditions_hash (r : rule) : option string := option_map (md5hex L) (conditions_string r).

(** rules_load.go:538-540 ConditionsEqual *)
Definition conditions_equal (r1 r2 : rule) : option bool :=
  match conditions_hash r1, conditions_hash r2 with
  | Some a, Some b => Some (String.eqb a b)
  | _, _ => None
  end.

(** rules_load.go:542-549 (Rule).ToLower *)
Definition rule_to_lower (r : rule) : rule :=
  mkRule (ru_id r) (ru_sender_name r) (to_lower (ru_sender_type r)) (ru_sender_list r)
    (ru_receiver_name r) (to_lower (ru_receiver_type r)) (ru_receiver_list r)
    (to_lower (ru_protocol r)) (to_lower (ru_resource_type r)) (ru_resource_name r) (ru_resource_regex r)
    (to_lower (ru_operation r)) (ru_tree r) (to_lower (ru_decision r)) (ru_metadata r) (ru_hash r)
    (ru_operation_regex r) (ru_converted r).

(** tools.go:124-134 RuleStrings without the never filled RuleSetId *)
Record rule_strings := mkRuleStrings {
  st_sender : string; st_receiver : string; st_protocol : string; st_resource : string;
  st_operation : string; st_conditions : string; st_decision : string
}.
(** definitions_rule.go:241-247, 249-255: the text of a sender or receiver *)
Definition party_string (type name : string) : string :=
  if String.eqb type "" then "{default type}::" ++ name else type ++ ":" ++ name.
(** definitions_rule.go:257-263 (Resource).String *)
Definition resource_string (type name : string) : string :=
  if String.eqb type "" then "default:default" else type ++ ":" ++ name.
Definition or_default (s : string) : string := if String.eqb s "" then "default" else s.
(** tools.go:136-164 GetRuleStrings; a rule without conditions is a nil dereference *)
Definition get_rule_strings (r : rule) : option rule_strings :=
  match ru_tree r with
  | None => None
  | Some n =>
    option_map (fun c => mkRuleStrings (party_string (ru_sender_type r) (ru_sender_name r))
      (party_string (ru_receiver_type r) (ru_receiver_name r)) (or_default (ru_protocol r))
      (resource_string (ru_resource_type r) (ru_resource_name r)) (or_default (ru_operation r)) c
      (or_default (ru_decision r))) (node_string n)
  end.

End WithLib.
