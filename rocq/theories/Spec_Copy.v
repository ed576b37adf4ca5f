(** Specification of the rules whose serialised copy is faithful. *)
From Coq Require Import List String Ascii Bool Arith ZArith.
From Verif Require Import Base GoStr Types Spec_Glob Spec_Json.
Import ListNotations.
Open Scope string_scope.

(** no control characters; moreover no quotation marks and backslashes *)
Definition printable (s : string) : Prop := all_chars (fun c => 32 <= nat_of_ascii c)%nat s.
Definition unescaped (s : string) : Prop := all_chars (fun c => (32 <= nat_of_ascii c)%nat /\ c <> dq /\ c <> bslash) s.

(** Go maps have no order of entries; the model lists them, here by key *)
Definition listed_by_key (m : option (list (string * string))) : Prop :=
  match m with Some l => sorted_keys l | None => True end.

Section WithLib.
Variable L : Lib.
Inductive copyable : node L -> Prop :=
| cp_and ns : ns <> [] -> Forall copyable ns -> copyable (NAnd ns)
| cp_or ns : ns <> [] -> Forall copyable ns -> copyable (NOr ns)
| cp_not n : copyable n -> copyable (NNot n)
| cp_quant q a n : unescaped (a_orig a) -> listed_by_key (r_orig (a_ret a)) -> copyable n -> copyable (NQuant q a n)
| cp_cond c : printable (c_attr c) -> printable (c_value c) -> listed_by_key (r_orig (c_ret c)) -> copyable (NCond c).
End WithLib.

(** nothing of a rule was derived yet *)
Definition underived (L : Lib) (r : rule L) : Prop :=
  ru_sender_list r = [] /\ ru_receiver_list r = [] /\ ru_resource_regex r = None /\ ru_operation_regex r = None /\ ru_converted r = false.
