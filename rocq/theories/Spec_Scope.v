(** Reordering of trees, and trees that do not depend on the surrounding relative context. *)
From Coq Require Import List String Ascii Bool Arith ZArith Permutation.
From Verif Require Import Base GoFloat Types Spec_Tree.
Import ListNotations.
Open Scope string_scope.

(** Reordering of the children of AND and OR, at any depth. *)
Inductive shuffled {L : Lib} : node L -> node L -> Prop :=
| sh_same n : shuffled n n
| sh_and ns ns' ns'' : Forall2 shuffled ns ns' -> Permutation ns' ns'' -> shuffled (NAnd ns) (NAnd ns'')
| sh_or ns ns' ns'' : Forall2 shuffled ns ns' -> Permutation ns' ns'' -> shuffled (NOr ns) (NOr ns'')
| sh_not n n' : shuffled n n' -> shuffled (NNot n) (NNot n')
| sh_quant q a n n' : shuffled n n' -> shuffled (NQuant q a n) (NQuant q a n').

Section Scope.
Variable L : Lib.
Notation node := (node L).

(** messages equal except for the relative fields *)
Definition without_relative (m : message) : message := set_raw_rel (set_json_rel m None) None.
Definition same_but_relative (m m' : message) : Prop := without_relative m = without_relative m'.

(** no condition or parent path outside ANY/ALL refers to the current element *)
Fixpoint closed (bound : bool) (n : node) : Prop :=
  match n with
  | NTrue | NFalse | NNil => True
  | NCond c => bound = true \/ (j_rel (c_jp c) = false /\ forall k, assoc k (r_rel (c_ret c)) <> Some true)
  | NNot n' => closed bound n'
  | NAnd ns | NOr ns => fold_right (fun n' p => closed bound n' /\ p) True ns
  | NQuant _ a n' =>
    (bound = true \/ (~ refers_to_element (a_parent a) /\ Forall (fun p => ~ refers_to_element p) (a_parents a)))
    /\ closed true n'
  end.

(** every query of the tree was prepared *)
Fixpoint fully_prepared (n : node) : Prop :=
  match n with
  | NTrue | NFalse | NNil => True
  | NCond c => c_attr c = "jsonpath" -> j_prep (c_jp c) <> None
  | NNot n' => fully_prepared n'
  | NAnd ns | NOr ns => fold_right (fun n' p => fully_prepared n' /\ p) True ns
  | NQuant _ a n' => a_prep a <> [] /\ fully_prepared n'
  end.

End Scope.
