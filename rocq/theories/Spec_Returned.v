(** The extra data a tree returns, from the return values as they are written in the tree. *)
From Coq Require Import List String Ascii Bool Arith ZArith.
From Verif Require Import Base GoStr GoFloat Types Json Spec_Tree Spec_Glob Spec_Leaf Spec_Extra Spec_Grammar Spec_Raw Spec_Decision Spec_Meaning.
Import ListNotations.
Open Scope string_scope.

Section WithLib.
Variable L : Lib.
Variable p : predef.

(** ** Return values *)
(** what is found for one return value; [None]: there is no entry.  [rel]: asked of the current element; [path]: what is
    asked; [q]: the query the path stands for on parsed documents, if it is one *)
Inductive value_found (rel : bool) (path : string) (q : option (JQ L)) (m : message) : option iface -> Prop :=
| vf_whole d : m_raw m <> None -> path = "$*" -> (if rel then m_raw_rel m else m_raw m) = Some d -> value_found rel path q m (Some d)
| vf_query f d : m_raw m <> None -> path <> "$*" -> q = Some f -> (if rel then m_raw_rel m else m_raw m) = Some d ->
    value_found rel path q m (asks L f d)
| vf_no_query : m_raw m <> None -> path <> "$*" -> q = None -> value_found rel path q m (Some GNil)
| vf_raw d text failed : m_raw m = None -> (if rel then m_json_rel m else m_json m) = Some d -> js_get L d path = (text, failed) ->
    value_found rel path q m (json_parse L text).

(** of a condition: [$RELATIVE] stays in the path that is asked *)
Definition condition_value (written : string) (m : message) (v : option iface) : Prop :=
  exists rel path, (rel = true <-> starts "jsonpath:$RELATIVE" written) /\ first_swapped "jsonpath:$" "$" written path /\
    value_found rel path (jp_prepare L path) m v.
(** of ANY: always of the current element *)
Definition element_value (written : string) (m : message) (v : option iface) : Prop :=
  exists rest q, written = "jsonpath:$RELATIVE" ++ rest /\ query_for L ("$" ++ rest) q /\ value_found true ("$" ++ rest) q m v.

(** a record: the names for which something is found, with what is found *)
Inductive record (value : string -> message -> option iface -> Prop) (m : message) : list (string * string) -> list (string * iface) -> Prop :=
| re_none : record value m [] []
| re_entry name written v rets e : value written m (Some v) -> record value m rets e -> record value m ((name, written) :: rets) ((name, v) :: e)
| re_absent name written rets e : value written m None -> record value m rets e -> record value m ((name, written) :: rets) e.

(** those that satisfy [P], in order *)
Inductive kept {A} (P : A -> Prop) : list A -> list A -> Prop :=
| ke_none : kept P [] []
| ke_in x l k : P x -> kept P l k -> kept P (x :: l) (x :: k)
| ke_out x l k : ~ P x -> kept P l k -> kept P (x :: l) k.

(** ** Trees: the truth value and the extra data *)
Inductive returned : node L -> message -> bool -> extra -> Prop :=
| rt_condition c m rets e : means L p (NCond c) m -> starts "jsonpath:" (c_attr c) -> r_orig (c_ret c) = Some rets ->
    record condition_value m rets e -> returned (NCond c) m true [e]
| rt_plain c m : means L p (NCond c) m -> ~ starts "jsonpath:" (c_attr c) \/ r_orig (c_ret c) = None -> returned (NCond c) m true []
| rt_condition_false c m : ~ means L p (NCond c) m -> returned (NCond c) m false []
| rt_true m : returned NTrue m true []
| rt_false m : returned NFalse m false []
| rt_not n m b : (b = true <-> ~ means L p n m) -> returned (NNot n) m b []
(* the data of the last child that has some *)
| rt_and ns m xs x : Forall2 (fun n y => returned n m true y) ns xs -> last_non_empty xs x -> returned (NAnd ns) m true x
(* the children after the first false one do not count *)
| rt_and_false before n after m xs y x : Forall2 (fun n y => returned n m true y) before xs -> returned n m false y ->
    last_non_empty (xs ++ [y])%list x -> returned (NAnd (before ++ n :: after)%list) m false x
(* the data of all the true children *)
| rt_or ns m xs b : Forall2 (fun n y => returned n m true y \/ ~ means L p n m /\ y = []) ns xs -> (b = true <-> means L p (NOr ns) m) ->
    returned (NOr ns) m b (List.concat xs)
(* a record for every element that satisfies the inner condition *)
| rt_any a n m ms rets hits x b : ranges_over L a m (Some ms) -> r_orig (a_ret a) = Some rets -> kept (means L p n) ms hits ->
    Forall2 (fun m' e => record element_value m' rets e) hits x -> (b = true <-> hits <> []) -> returned (NQuant QAny a n) m b x
| rt_any_plain a n m b : r_orig (a_ret a) = None -> (b = true <-> means L p (NQuant QAny a n) m) -> returned (NQuant QAny a n) m b []
| rt_any_error a n m : ranges_over L a m None -> returned (NQuant QAny a n) m false []
| rt_all a n m b : (b = true <-> means L p (NQuant QAll a n) m) -> returned (NQuant QAll a n) m b [].

(** ** Rules: a rule that decides returns what its tree returns, any other rule nothing *)
Definition rule_returned (r : rule L) (m : message) (x : extra) : Prop :=
  (applies L p r m /\ (exists d, decision_word (ru_decision r) d) /\
     match ru_tree r with None => x = [] | Some n => returned n m true x end)
  \/ ((~ applies L p r m \/ forall d, ~ decision_word (ru_decision r) d) /\ x = []).
End WithLib.
