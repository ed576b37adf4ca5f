(** Trees as the program uses them, and the results evaluating them may have. *)
From Coq Require Import List String Ascii Bool Arith ZArith.
From Verif Require Import Base Types Prepare Parse Spec_Tree Spec_Load.
Import ListNotations.
Open Scope string_scope.

Section WithLib.
Variable L : Lib.

(** a tree that was loaded from a decoded document and prepared *)
Definition ready (n : node L) : Prop :=
  exists ord v t n0 t' p, fair ord /\ go_value v /\
    parse_conditions_tree L ord v t = (Ok n0, t') /\ prepare_node L p n0 = Ok n.
End WithLib.
