(** Specification of the text a JSON-path condition compares: what remains of the text of a result. *)
From Coq Require Import List String Ascii Bool Arith.
From Verif Require Import GoStr Spec_Names Spec_Leaf.
Import ListNotations.
Open Scope string_scope.

(** ** Replacing one text by another *)
(** no occurrence of [w] in [a ++ w ++ s] begins before the end of [a] *)
Definition earliest (w a s : string) : Prop :=
  forall a' s', a ++ w ++ s = a' ++ w ++ s' -> (String.length a <= String.length a')%nat.
(** every occurrence of [w] is replaced by [r], from left to right, overlapping ones only once *)
Inductive all_replaced (w r : string) : string -> string -> Prop :=
| ar_none s : ~ occurs w s -> all_replaced w r s s
| ar_next a s t : earliest w a s -> all_replaced w r s t -> all_replaced w r (a ++ w ++ s) (a ++ r ++ t).
(** the first occurrence only *)
Inductive first_replaced (w r : string) : string -> string -> Prop :=
| fr_none s : ~ occurs w s -> first_replaced w r s s
| fr_first a s : earliest w a s -> first_replaced w r (a ++ w ++ s) (a ++ r ++ s).
(** the number of occurrences that do not overlap, from left to right *)
Inductive times (w : string) : string -> nat -> Prop :=
| tm_none s : ~ occurs w s -> times w s 0
| tm_next a s n : earliest w a s -> times w s n -> times w (a ++ w ++ s) (S n).
(** the parts between the separators *)
Inductive separated (c : ascii) : string -> list string -> Prop :=
| sp_last s : ~ occurs (String c "") s -> separated c s [s]
| sp_next a s l : ~ occurs (String c "") a -> separated c s l -> separated c (a ++ String c s) (a :: l).

(** ** Results *)
(** doubled brackets become single, and brackets next to quotation marks disappear *)
Definition unbracketed (raw d : string) : Prop :=
  exists a b c, all_replaced "[[" "[" raw a /\ all_replaced "]]" "]" a b /\
    all_replaced ("[" ++ dqs) dqs b c /\ all_replaced (dqs ++ "]") dqs c d.
(** the quotation marks around a text, and the empty list *)
Inductive peeled : string -> string -> Prop :=
| pl_list : peeled "[]" ""
| pl_quotes x : peeled (dqs ++ x ++ dqs) x
| pl_other d : d <> "[]" -> (forall x, d <> dqs ++ x ++ dqs) -> peeled d d.
Definition first_mark (u : string) : Prop := exists x, u = dqs ++ x.
Definition last_mark (u : string) : Prop := exists x, u = x ++ dqs.
(** what is compared; quotation marks are removed a second time, and must then be at both ends or at none *)
Inductive compared (raw : string) : status -> Prop :=
| cp_missing d : unbracketed raw d -> peeled d "" -> compared raw Missing
| cp_quoted d x : unbracketed raw d -> peeled d (dqs ++ x ++ dqs) -> compared raw (Present x)
| cp_one_side d u : unbracketed raw d -> peeled d u -> u <> dqs ->
    (first_mark u /\ ~ last_mark u \/ last_mark u /\ ~ first_mark u) -> compared raw Misaligned
| cp_plain d u : unbracketed raw d -> peeled d u -> u <> "" -> (u = dqs \/ ~ first_mark u /\ ~ last_mark u) -> compared raw (Present u).

(** ** Lists of values *)
Inductive no_brackets : string -> string -> Prop :=
| nb_end : no_brackets "" ""
| nb_drop c s t : In c ["["; "]"]%char -> no_brackets s t -> no_brackets (String c s) t
| nb_keep c s t : ~ In c ["["; "]"]%char -> no_brackets s t -> no_brackets (String c s) (String c t).
