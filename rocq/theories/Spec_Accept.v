(** Specification of the rules that can be prepared, from the texts they are written with. *)
From Coq Require Import List String Ascii Bool Arith ZArith.
From Verif Require Import Base GoStr GoFloat Types StrUtils Validate Spec_Tree Spec_Regex Spec_Glob Spec_Match Spec_Leaf Spec_Validate Spec_Load Spec_Names Spec_Grammar Spec_Copy Spec_Raw Spec_Meaning.
Import ListNotations.
Open Scope string_scope.

(** ** Queries of paths *)
(** quotation marks around a name after a dot are removed *)
Definition quote_mark (c : ascii) : Prop := c = sq \/ c = dq.
Inductive unquoted : string -> string -> Prop :=
| uq_end : unquoted "" ""
| uq_name q name rest rest' : quote_mark q -> all_chars (fun c => ~ quote_mark c) name -> (forall a, name <> a ++ ".") ->
    unquoted rest rest' -> unquoted (String "." (String q (name ++ String q rest))) (String "." (name ++ rest'))
| uq_char c rest rest' : (c = "."%char -> forall q x, quote_mark q -> rest <> String q x) ->
    unquoted rest rest' -> unquoted (String c rest) (String c rest').
(** other single quotation marks become double ones, and a bracket needs no dot *)
Definition tidied (s : string) : string := replace_all (replace_all s sqs dqs) ".[" "[".

(** the path of an attribute, whether it is relative, and the text of the query *)
Inductive query_of : string -> bool -> string -> Prop :=
| qo_absolute rest u : starts "." rest -> unquoted ("$" ++ rest) u -> query_of ("$" ++ rest) false (tidied u)
| qo_short rest u : starts "." rest -> unquoted ("$" ++ rest) u -> query_of rest false (tidied u)
| qo_relative rest u : starts "." rest -> unquoted ("$" ++ rest) u -> query_of ("$RELATIVE" ++ rest) true (tidied u)
| qo_element : query_of "$RELATIVE" true "$"
| qo_key rest u : ~ starts "." rest -> ~ occurs "$RELATIVE." rest -> unquoted ("$KEY" ++ rest) u -> query_of ("$KEY" ++ rest) true (tidied u)
| qo_value rest u : ~ occurs "$RELATIVE." rest -> unquoted ("$VALUE" ++ rest) u -> query_of ("$VALUE" ++ rest) true (tidied u).

(** ** Patterns as regular expressions *)
Fixpoint wildcards (s : string) : string :=
  match s with
  | EmptyString => ""
  | String c s' =>
    (if Ascii.eqb c "." then "[.]" else if Ascii.eqb c "*" then ".*" else if Ascii.eqb c "?" then "."
     else if Ascii.eqb c "$" then String bslash "$" else if Ascii.eqb c "^" then String bslash "^"
     else if Ascii.eqb c "/" then String bslash "/" else String c "") ++ wildcards s'
  end.
(** the expression for the whole value of a condition *)
Definition whole_value (method value : string) : string :=
  if is_any method ["IN"; "NIN"] then "(^" ++ wildcards (list_to_alternatives value) ++ "$)"
  else if String.eqb method "IS" then "^" ++ list_to_alternatives value ++ "$"
  else "^" ++ value ++ "$".

Section WithLib.
Variable L : Lib.

(** a query the library accepts; one that mentions $KEY or $VALUE always is *)
Definition query_accepted (query : string) : Prop :=
  (let q := replace_all query "$RELATIVE" "$" in occurs "$KEY" q \/ occurs "$VALUE" q) \/ exists jq, query_for L query (Some jq).

Definition well_quoted (att : string) : Prop := forall path, att = "jsonpath:" ++ path -> path_start path -> exists rel q, query_of path rel q.

Section Dictionary.
Variable p : predef.

(** a condition that can be prepared *)
Definition preparable (att method value : string) : Prop :=
  exists v, replaced p method value v /\ acceptable L att method v /\
    (method = "IS" -> re_compile L (list_to_alternatives v) <> None) /\
    (~ starts "jsonpath:" att -> re_compile L (whole_value method v) <> None) /\
    (forall path rel q, att = "jsonpath:" ++ path -> query_of path rel q -> query_accepted q).

(** ** Trees and rules *)
Definition preparable_tree (n : node L) : Prop :=
  ~ missing_inner L n /\
  (forall c, has_condition L n c -> preparable (c_attr c) (c_method c) (c_value c)) /\
  (forall parents items path, has_parent L n parents -> comma_items parents items -> In path items -> query_accepted path).

Definition preparable_name (type name : string) : Prop :=
  exists name', replaced_name p name name' /\
    (type = "subnet" -> forall items item, comma_items name' items -> In item items -> address_or_network L item).
Definition preparable_rule (r : rule L) : Prop :=
  (forall n, ru_tree r = Some n -> preparable_tree n) /\
  preparable_name (ru_sender_type r) (ru_sender_name r) /\ preparable_name (ru_receiver_type r) (ru_receiver_name r).

(** names, operations and resources that are patterns without characters special to regular expressions *)
Record patterns_only (r : rule L) : Prop := {
  po_sender : forall name, replaced_name p (ru_sender_name r) name -> pattern_ok name;
  po_receiver : forall name, replaced_name p (ru_receiver_name r) name -> pattern_ok name;
  po_operation : pattern_ok (ru_operation r);
  po_resource : pattern_ok (ru_resource_name r);
}.
End Dictionary.

(** the paths of the conditions of a tree have matching quotation marks *)
Definition well_quoted_tree (n : node L) : Prop := forall c, has_condition L n c -> well_quoted (c_attr c).
(** rules as loaded, within these limits *)
Record ordinary (p : predef) (r : rule L) : Prop := {
  or_new : underived L r;
  or_tree : forall n, ru_tree r = Some n -> loaded_tree L n /\ well_quoted_tree n;
  or_patterns : patterns_only p r;
}.
(** no NOT, ANY or ALL without the condition inside it *)
Definition complete (r : rule L) : Prop := forall n, ru_tree r = Some n -> ~ missing_inner L n.
(** what the prepared rule says *)
Record prepared_from (p : predef) (r r' : rule L) : Prop := {
  pf_sender : replaced_name p (ru_sender_name r) (ru_sender_name r');
  pf_receiver : replaced_name p (ru_receiver_name r) (ru_receiver_name r');
  pf_tree : match ru_tree r, ru_tree r' with
   | Some n, Some n' => tree_prepared L p n n'
   | None, None => True
   | _, _ => False
   end;
  pf_texts : [ru_id r'; ru_sender_type r'; ru_receiver_type r'; ru_protocol r'; ru_resource_type r'; ru_resource_name r'; ru_operation r'; ru_decision r'; ru_hash r'] =
    [ru_id r; ru_sender_type r; ru_receiver_type r; ru_protocol r; ru_resource_type r; ru_resource_name r; ru_operation r; ru_decision r; ru_hash r];
  pf_metadata : ru_metadata r' = ru_metadata r;
}.
(** what ValidateRule accepts: names are taken as they are written *)
Definition valid_side (type name : string) : Prop :=
  type = "subnet" -> forall items item, comma_items name items -> In item items -> address_or_network L item.
Definition valid_rule (r : rule L) : Prop :=
  (forall n, ru_tree r = Some n -> preparable_tree empty_predef n) /\
  valid_side (ru_sender_type r) (ru_sender_name r) /\ valid_side (ru_receiver_type r) (ru_receiver_name r).
End WithLib.
