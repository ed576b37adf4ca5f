(** The entries of a dictionary that a rule refers to: two dictionaries that agree on them prepare the rule alike. *)
From Coq Require Import List String Ascii Bool Arith ZArith.
From Verif Require Import Base GoStr Types.
Import ListNotations.
Open Scope string_scope.

(** The two dictionaries (as supplied, before their lists are resolved) say the same about [x]: the same list, with
    the same texts for the names its items refer to, or, when there is no list [x], the same text. *)
Definition same_entry (d d' : predef) (x : string) : Prop :=
  assoc x (p_lists d) = assoc x (p_lists d') /\
  match assoc x (p_lists d) with
  | Some items => forall y, In ("#" ++ y) items -> assoc y (p_strings d) = assoc y (p_strings d')
  | None => assoc x (p_strings d) = assoc x (p_strings d')
  end.

Section WithLib.
Variable L : Lib.

(** a condition of the tree has the value [#x] *)
Inductive tree_refers (x : string) : node L -> Prop :=
| tr_cond c : c_value c = "#" ++ x -> tree_refers x (NCond c)
| tr_and n ns : In n ns -> tree_refers x n -> tree_refers x (NAnd ns)
| tr_or n ns : In n ns -> tree_refers x n -> tree_refers x (NOr ns)
| tr_not n : tree_refers x n -> tree_refers x (NNot n)
| tr_quant q a n : tree_refers x n -> tree_refers x (NQuant q a n).

Definition refers (r : rule L) (x : string) : Prop :=
  ru_sender_name r = "#" ++ x \/ ru_receiver_name r = "#" ++ x \/ exists n, ru_tree r = Some n /\ tree_refers x n.
End WithLib.
