(** The texts of trees and rules, written out. *)
From Coq Require Import List String Ascii Bool Arith Permutation Sorted.
From Verif Require Import Base GoStr Types Spec_Tree Spec_Glob Spec_Match Spec_Strings.
Import ListNotations.
Open Scope string_scope.

(** the order of the bytes: the shorter text first, otherwise the first difference counts *)
Definition in_order (a b : string) : Prop := exists p x y, a = p ++ x /\ b = p ++ y /\
  (x = "" \/ exists c x' d y', x = String c x' /\ y = String d y' /\ (nat_of_ascii c < nat_of_ascii d)%nat).
Definition arranged (l l' : list string) : Prop := Permutation l l' /\ StronglySorted in_order l'.
(** a map prints its entries in the order of their keys *)
Definition map_text (m : list (string * string)) (s : string) : Prop := exists m',
  Permutation m m' /\ StronglySorted (fun e e' => in_order (fst e) (fst e')) m' /\
  s = "map[" ++ String.concat " " (map (fun e => String.concat ":" [fst e; snd e]) m') ++ "]".

Section WithLib.
Variable L : Lib.
Notation node := (node L).

(** [written n s]: [s] is the text of the tree [n] *)
Inductive written : node -> string -> Prop :=
| wr_true : written NTrue "true"
| wr_false : written NFalse "false"
| wr_cond c att method value : shows L c att method value -> written (NCond c) ("<" ++ String.concat "-" [att; method; value] ++ ">")
| wr_not n s : written n s -> written (NNot n) ("!(" ++ s ++ ")")
| wr_and_one n s : written n s -> written (NAnd [n]) s
| wr_or_one n s : written n s -> written (NOr [n]) s
| wr_and ns xs ys : List.length ns <> 1 -> Forall2 written ns xs -> arranged xs ys -> written (NAnd ns) ("(" ++ String.concat " && " ys ++ ")")
| wr_or ns xs ys : List.length ns <> 1 -> Forall2 written ns xs -> arranged xs ys -> written (NOr ns) ("(" ++ String.concat " || " ys ++ ")")
| wr_any a n p m mt s : shows_quant L a p m -> map_text m mt -> written n s -> written (NQuant QAny a n) ("[ANY<" ++ p ++ ";" ++ mt ++ ">:" ++ s ++ "]")
| wr_all a n p m mt s : shows_quant L a p m -> map_text m mt -> written n s -> written (NQuant QAll a n) ("[ALL<" ++ p ++ ";" ++ mt ++ ">:" ++ s ++ "]").

(** no key twice in the return values of an ANY or ALL, as in every Go map *)
Inductive one_each : node -> Prop :=
| oe_leaf n : n = NTrue \/ n = NFalse \/ n = NNil \/ (exists c, n = NCond c) -> one_each n
| oe_and ns : Forall one_each ns -> one_each (NAnd ns)
| oe_or ns : Forall one_each ns -> one_each (NOr ns)
| oe_not n : one_each n -> one_each (NNot n)
| oe_quant q a p m n : shows_quant L a p m -> one_each n -> one_each (NQuant q a n).

(** [x'] is [x] in small letters *)
Definition in_small (x x' : string) : Prop := same_ignoring_case x x' /\ all_chars (fun c => ~ (65 <= nat_of_ascii c <= 90)%nat) x'.
Definition rule_written (r : rule L) (s : string) : Prop := exists decision sender receiver operation protocol conditions,
  in_small (ru_decision r) decision /\ in_small (ru_sender_type r) sender /\ in_small (ru_receiver_type r) receiver /\
  in_small (ru_operation r) operation /\ in_small (ru_protocol r) protocol /\
  match ru_tree r with None => conditions = "no conditions" | Some n => written n conditions end /\
  s = String.concat "-" ["<" ++ decision ++ ">"; "<" ++ sender ++ ":" ++ ru_sender_name r ++ ">"; "<" ++ receiver ++ ":" ++ ru_receiver_name r ++ ">";
    operation; protocol; "<" ++ ru_resource_type r ++ "-" ++ ru_resource_name r ++ ">"; conditions].
End WithLib.
