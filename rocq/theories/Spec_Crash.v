(** Specification of the values on which loading a conditions tree can panic. *)
From Coq Require Import List String Ascii Bool Arith ZArith.
From Verif Require Import Base GoStr GoFloat Types Json Spec_Load Spec_Grammar.
Import ListNotations.
Open Scope string_scope.

Definition a_text (v : iface) : Prop := exists s, v = GStr s.
(** a map with a key that is no text; a map with a value that is no text *)
Definition odd_key (v : iface) : Prop := exists m k x, v = GMapI m /\ In (k, x) m /\ ~ a_text k.
Definition odd_value (v : iface) : Prop := exists es k x, entries_of v es /\ In (k, x) es /\ ~ a_text x.

Section WithLib.
Variable L : Lib.
(** a map under ANY or ALL whose entries are looked at *)
Definition quant_map (kw : string) (v : iface) (es : list (string * iface)) : Prop :=
  In kw ["ANY"; "ALL"] /\ entries_of v es /\ ~ condition_keys (map fst es) /\ (List.length es = 2 \/ List.length es = 3)%nat /\
  In "parentJsonpathAttribute" (map fst es).
(** the value [v] found under the keyword [kw] can make the loader panic *)
Inductive crashes (kw : string) : iface -> Prop :=
| cr_key v : odd_key v -> crashes kw v
| cr_condition v es x : entries_of v es -> condition_keys (map fst es) -> given att_key es x \/ given method_key es x -> ~ a_text x -> crashes kw v
| cr_condition_return v es x : entries_of v es -> condition_keys (map fst es) -> given return_key es x -> odd_key x \/ odd_value x -> crashes kw v
| cr_keyword v k w : entries_of v [(k, w)] -> In kw [""; "condition"; "conditions"; "conditionsTree"; "AND"; "OR"; "NOT"] ->
    crashes k w -> crashes kw v
| cr_single x : kw = "" -> crashes "" x -> crashes kw (GArr [x])
| cr_list l x l' : In kw ["AND"; "OR"; "NOT"] -> Forall (fun y => exists n, reads L "" y n) l -> crashes "" x -> crashes kw (GArr (l ++ x :: l'))
| cr_parent v es x : quant_map kw v es -> In ("parentJsonpathAttribute", x) es -> ~ a_text x -> crashes kw v
| cr_return v es x : quant_map kw v es -> In ("returnValueJsonpath", x) es -> odd_key x \/ odd_value x -> crashes kw v
| cr_inner v es k w : quant_map kw v es -> In (k, w) es -> inner_key k -> crashes k w -> crashes kw v.
End WithLib.
