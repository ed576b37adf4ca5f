(** Rules that are converted or prepared in place before they are checked: what the library does to
    regular expressions when a rule is copied. *)
From Coq Require Import List String Ascii Bool Arith ZArith.
From Verif Require Import Base GoStr Types Spec_Tree.
Import ListNotations.
Open Scope string_scope.

Section WithLib.
Variable L : Lib.
(** a compiled expression written as JSON and read again is the same expression (Go 1.21 and later) *)
Definition keeps_expressions : Prop := forall x : RE L, re_json L x = Some x.
(** it is an empty one (before Go 1.21) *)
Definition loses_expressions : Prop := forall x : RE L, re_json L x = None.

(** the texts of a condition by which preparation changes its attribute *)
Definition derived_attribute (att : string) : Prop :=
  starts "jsonpath:" att \/ starts "senderLabel[" att \/ starts "receiverLabel[" att \/ starts "$sender." att \/ starts "$receiver." att.
End WithLib.
