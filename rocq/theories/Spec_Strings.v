(** Specification of what the textual form of a tree shows. *)
From Coq Require Import List String Ascii Bool Arith ZArith Permutation.
From Verif Require Import Base GoStr Types Spec_Tree Spec_Glob Spec_Match Spec_Leaf.
Import ListNotations.
Open Scope string_scope.

(** the text shown for a field: the original one if it was kept *)
Definition shown (original now s : string) : Prop := (original <> "" /\ s = original) \/ (original = "" /\ s = now).

Section WithLib.
Variable L : Lib.
Notation node := (node L).

Definition shows (c : cond L) (att method value : string) : Prop :=
  shown (og_attr (c_orig c)) (c_attr c) att /\ shown (og_method (c_orig c)) (c_method c) method /\
  shown (og_value (c_orig c)) (c_value c) value.

(** the return values shown for ANY/ALL *)
Definition shows_returns (r : retpart L) (m : list (string * string)) : Prop :=
  match r_orig r with
  | Some (x :: l) => m = x :: l
  | _ => m = match r_paths r with Some p => p | None => [] end
  end.
Definition shows_quant (a : aanode L) (parent : string) (returns : list (string * string)) : Prop :=
  shown (a_orig a) (a_parent a) parent /\ shows_returns (a_ret a) returns /\ NoDup (keys returns).

(** Trees that are the same up to the order of AND/OR children, AND/OR around a single child and
    fields that are not shown. *)
Inductive alike : node -> node -> Prop :=
| al_same n : alike n n
| al_back n n' : alike n n' -> alike n' n
| al_step n n' n'' : alike n n' -> alike n' n'' -> alike n n''
| al_cond c d att method value : shows c att method value -> shows d att method value -> alike (NCond c) (NCond d)
| al_and ns ns' : Permutation ns ns' -> alike (NAnd ns) (NAnd ns')
| al_or ns ns' : Permutation ns ns' -> alike (NOr ns) (NOr ns')
| al_and_at l n n' l' : alike n n' -> alike (NAnd (l ++ n :: l')) (NAnd (l ++ n' :: l'))
| al_or_at l n n' l' : alike n n' -> alike (NOr (l ++ n :: l')) (NOr (l ++ n' :: l'))
| al_not n n' : alike n n' -> alike (NNot n) (NNot n')
| al_quant q a b n n' p m m' : shows_quant a p m -> shows_quant b p m' -> Permutation m m' -> alike n n' ->
    alike (NQuant q a n) (NQuant q b n')
| al_and_one n : alike (NAnd [n]) n
| al_or_one n : alike (NOr [n]) n.

(** No child is missing *)
Inductive no_nil : node -> Prop :=
| nn_and ns : Forall no_nil ns -> no_nil (NAnd ns)
| nn_or ns : Forall no_nil ns -> no_nil (NOr ns)
| nn_not n : no_nil n -> no_nil (NNot n)
| nn_quant q a n : no_nil n -> no_nil (NQuant q a n)
| nn_true : no_nil NTrue
| nn_false : no_nil NFalse
| nn_cond c : no_nil (NCond c).

(** Trees whose texts contain no separators *)
Definition avoids (cs : list ascii) (s : string) : Prop := all_chars (fun c => ~ In c cs) s.
(** no method between dashes, or after the last dash *)
Definition no_method_part (att : string) : Prop :=
  forall k method a b, method_is method k -> att = a ++ "-" ++ method ++ b -> b <> "" /\ ~ starts "-" b.

Inductive legible : node -> Prop :=
| lg_and ns : ns <> [] -> Forall legible ns -> legible (NAnd ns)
| lg_or ns : ns <> [] -> Forall legible ns -> legible (NOr ns)
| lg_not n : legible n -> legible (NNot n)
| lg_quant q a n p m : shows_quant a p m -> avoids [";"]%char p ->
    Forall (fun e => avoids [":"; " "; ">"]%char (fst e) /\ avoids [" "; ">"]%char (snd e)) m ->
    legible n -> legible (NQuant q a n)
| lg_true : legible NTrue
| lg_false : legible NFalse
| lg_cond c att method value k : shows c att method value -> method_is method k ->
    avoids [">"]%char att -> avoids [">"]%char value -> no_method_part att -> legible (NCond c).

(** Rules with the same meaning of their texts: letter case of keywords apart, names and resources are equal. *)
Definition same_heading (r1 r2 : rule L) : Prop :=
  same_ignoring_case (ru_decision r1) (ru_decision r2) /\
  same_ignoring_case (ru_sender_type r1) (ru_sender_type r2) /\ ru_sender_name r1 = ru_sender_name r2 /\
  same_ignoring_case (ru_receiver_type r1) (ru_receiver_type r2) /\ ru_receiver_name r1 = ru_receiver_name r2 /\
  same_ignoring_case (ru_operation r1) (ru_operation r2) /\ same_ignoring_case (ru_protocol r1) (ru_protocol r2) /\
  ru_resource_type r1 = ru_resource_type r2 /\ ru_resource_name r1 = ru_resource_name r2.
Definition alike_conditions (t1 t2 : option node) : Prop :=
  match t1, t2 with
  | None, None => True
  | Some n1, Some n2 => alike n1 n2
  | _, _ => False
  end.
(** texts of the parts of a rule that contain no separator *)
Definition plain_heading (r : rule L) : Prop :=
  avoids [">"]%char (ru_decision r) /\ avoids [":"]%char (ru_sender_type r) /\ avoids [">"]%char (ru_sender_name r) /\
  avoids [":"]%char (ru_receiver_type r) /\ avoids [">"]%char (ru_receiver_name r) /\ avoids ["-"]%char (ru_operation r) /\
  avoids ["-"]%char (ru_protocol r) /\ avoids ["-"]%char (ru_resource_type r) /\ avoids [">"]%char (ru_resource_name r).
Definition legible_conditions (t : option node) : Prop := match t with None => True | Some n => legible n end.
End WithLib.
