(** Specification of the objects listed in a JSON text, and of texts whose string literals contain no braces. *)
From Coq Require Import List String Ascii Bool Arith ZArith.
From Verif Require Import Base GoStr GoFloat Types Json Spec_Glob Spec_Json.
Import ListNotations.
Open Scope string_scope.

(** the inside of a string literal: a quote only after a backslash *)
Inductive literal : string -> Prop :=
| lt_end : literal ""
| lt_char c x : c <> dq -> c <> bslash -> literal x -> literal (String c x)
| lt_escape c x : literal x -> literal (String bslash (String c x)).
Definition brace (c : ascii) : Prop := c = "{"%char \/ c = "}"%char.
Definition braceless (s : string) : Prop := all_chars (fun c => ~ brace c) s.
(** a text read from left to right none of whose string literals contains a brace *)
Inductive braceless_strings : string -> Prop :=
| bs_end : braceless_strings ""
| bs_char c s : c <> dq -> braceless_strings s -> braceless_strings (String c s)
| bs_string x s : literal x -> braceless x -> braceless_strings s -> braceless_strings (String dq (x ++ String dq s)).

(** texts between commas and spaces *)
Inductive spaced : list string -> string -> Prop :=
| sp_one t w1 w2 : spaces w1 -> spaces w2 -> spaced [t] (w1 ++ t ++ w2)
| sp_cons t w1 w2 ts s : spaces w1 -> spaces w2 -> spaced ts s -> spaced (t :: ts) (w1 ++ t ++ w2 ++ "," ++ s).

Section WithLib.
Variable L : Lib.
(** the outermost objects of a text, in order *)
Inductive objects_in : string -> list string -> Prop :=
| oi_object m t : text L (GMapS m) t -> objects_in t [t]
| oi_scalar v t : text L v t -> (forall m, v <> GMapS m) -> (forall l, v <> GArr l) -> objects_in t []
| oi_empty w : spaces w -> objects_in ("[" ++ w ++ "]") []
| oi_array s os : objects_in_elements s os -> objects_in ("[" ++ s ++ "]") os
with objects_in_elements : string -> list string -> Prop :=
| oe_one t w1 w2 os : spaces w1 -> spaces w2 -> objects_in t os -> objects_in_elements (w1 ++ t ++ w2) os
| oe_cons t w1 w2 os s os' : spaces w1 -> spaces w2 -> objects_in t os -> objects_in_elements s os' ->
    objects_in_elements (w1 ++ t ++ w2 ++ "," ++ s) (os ++ os').
End WithLib.
