(** Rules whose JSON text can be followed: the texts spliced into it are those of JSON strings, and what the libraries
    write for derived fields is read back. *)
From Coq Require Import List String Ascii Bool Arith ZArith.
From Verif Require Import Base GoStr GoFloat Types Json Parse Marshal JsonDoc Spec_Tree Spec_Glob Spec_Json Spec_JsonDoc.
Import ListNotations.
Open Scope string_scope.

Section WithLib.
Variable L : Lib.

(** parent paths are written without escaping: they must be the inside of JSON strings *)
Inductive spliced : node L -> Prop :=
| spl_and ns : Forall spliced ns -> spliced (NAnd ns)
| spl_or ns : Forall spliced ns -> spliced (NOr ns)
| spl_not n : spliced n -> spliced (NNot n)
| spl_quant q a n : (exists x, chars x (original_or (a_orig a) (a_parent a))) -> spliced n -> spliced (NQuant q a n)
| spl_true : spliced NTrue
| spl_false : spliced NFalse
| spl_cond c : spliced (NCond c)
| spl_nil : spliced NNil.

Definition spliced_tree (t : option (node L)) : Prop := match t with Some n => spliced n | None => True end.

(** what encoding/json, net and regexp do with derived fields: lists and expressions that are written are read back *)
Variable re_text : option (string -> option (RE L)).
Variable exp_in : json -> P (expanded L * bool).
Variable exps_out : list (expanded L) -> string.
Variable re_out : RE L -> string.
Definition list_returns (l : list (expanded L)) : Prop :=
  l <> [] -> exists raw js, spelled (JArr raw js) (exps_out l) /\ forall t, jd_items exp_in js t = (Ok (map (expanded_json L) l, false), t).
Definition regex_returns (r : option (RE L)) : Prop :=
  forall x, r = Some x -> exists j, spelled j (re_out x) /\ forall t, jd_regex L re_text j None t = (Ok (re_json L x, false), t).
Definition derived_returns (r : rule L) : Prop :=
  list_returns (ru_sender_list r) /\ list_returns (ru_receiver_list r) /\ regex_returns (ru_resource_regex r) /\ regex_returns (ru_operation_regex r).
End WithLib.

(** a file of rules, given their texts *)
Definition rules_text (ss : list string) : string := "{" ++ quoted "rules" ++ ":[" ++ join "," ss ++ "]}".
