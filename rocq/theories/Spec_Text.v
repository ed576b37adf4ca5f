(** Specification of the texts of prepared trees and rules. *)
From Coq Require Import List String Ascii Bool Arith ZArith.
From Verif Require Import Base GoStr Types Spec_Tree Spec_Leaf Spec_Validate.
Import ListNotations.
Open Scope string_scope.

Section WithLib.
Variable L : Lib.

(** the condition with another value *)
Definition valued (c : cond L) (v : string) : cond L :=
  mkCond (c_attr c) (c_method c) v (c_num c) (c_lab c) (c_obj c) (c_jp c) (c_ret c) (c_orig c).

(** [n'] is [n] with each reference to a predefined text written out *)
Inductive written_out (p : predef) : node L -> node L -> Prop :=
| wo_and ns ns' : Forall2 (written_out p) ns ns' -> written_out p (NAnd ns) (NAnd ns')
| wo_or ns ns' : Forall2 (written_out p) ns ns' -> written_out p (NOr ns) (NOr ns')
| wo_not n n' : written_out p n n' -> written_out p (NNot n) (NNot n')
| wo_quant q a n n' : written_out p n n' -> written_out p (NQuant q a n) (NQuant q a n')
| wo_true : written_out p NTrue NTrue
| wo_false : written_out p NFalse NFalse
| wo_cond c v : replaced p (c_method c) (c_value c) v -> written_out p (NCond c) (NCond (valued c v)).

(** no condition "IS" without a value *)
Definition no_empty_is (n : node L) : Prop :=
  forall c, has_condition L n c -> c_method c = "IS" -> c_value c <> "".

(** no condition refers to a predefined text *)
Definition no_references (n : node L) : Prop :=
  forall c, has_condition L n c -> ~ starts "#" (c_value c).
End WithLib.
