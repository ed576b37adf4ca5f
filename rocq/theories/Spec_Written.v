(** A rule with its references to the dictionary written out by hand. *)
From Coq Require Import List String Ascii Bool Arith ZArith.
From Verif Require Import Base GoStr Types Lifecycle Spec_Tree Spec_Leaf Spec_Validate Spec_Grammar.
Import ListNotations.
Open Scope string_scope.

Section WithLib.
Variable L : Lib.
Variable v : predef.

(** the tree as loaded with other values in its conditions: each is what the dictionary says and no reference itself *)
Inductive written_tree : node L -> node L -> Prop :=
| wt_cond att method value ret value' c c' :
    condition_stored L att method value ret c -> condition_stored L att method value' ret c' ->
    replaced v method value value' -> ~ starts "#" value' -> written_tree (NCond c) (NCond c')
| wt_and ns ns' : Forall2 written_tree ns ns' -> written_tree (NAnd ns) (NAnd ns')
| wt_or ns ns' : Forall2 written_tree ns ns' -> written_tree (NOr ns) (NOr ns')
| wt_not n n' : written_tree n n' -> written_tree (NNot n) (NNot n')
| wt_quant q a n n' : written_tree n n' -> written_tree (NQuant q a n) (NQuant q a n')
| wt_true : written_tree NTrue NTrue
| wt_false : written_tree NFalse NFalse.

(** rules that differ in the names of sender and receiver and in the tree *)
Definition apart_from_texts (r r' : rule L) : Prop :=
  ru_id r' = ru_id r /\ ru_sender_type r' = ru_sender_type r /\ ru_sender_list r' = ru_sender_list r /\
  ru_receiver_type r' = ru_receiver_type r /\ ru_receiver_list r' = ru_receiver_list r /\ ru_protocol r' = ru_protocol r /\
  ru_resource_type r' = ru_resource_type r /\ ru_resource_name r' = ru_resource_name r /\ ru_resource_regex r' = ru_resource_regex r /\
  ru_operation r' = ru_operation r /\ ru_decision r' = ru_decision r /\ ru_metadata r' = ru_metadata r /\ ru_hash r' = ru_hash r /\
  ru_operation_regex r' = ru_operation_regex r /\ ru_converted r' = ru_converted r.
Definition written_rule (r r' : rule L) : Prop :=
  apart_from_texts r r' /\
  replaced_name v (ru_sender_name r) (ru_sender_name r') /\ ~ starts "#" (ru_sender_name r') /\
  replaced_name v (ru_receiver_name r) (ru_receiver_name r') /\ ~ starts "#" (ru_receiver_name r') /\
  match ru_tree r, ru_tree r' with
  | None, None => True
  | Some n, Some n' => written_tree n n'
  | _, _ => False
  end.

(** rules made ready that no check can tell apart: prepared alike, and the same identifier and metadata *)
Definition same_ready (s s' : rstate L) : Prop :=
  rs_ready s = true /\ rs_ready s' = true /\ rs_prepared s' = rs_prepared s /\
  ru_id (rs_rule s') = ru_id (rs_rule s) /\ ru_metadata (rs_rule s') = ru_metadata (rs_rule s).
End WithLib.
