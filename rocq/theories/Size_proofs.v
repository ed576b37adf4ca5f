(** Conditions on the payload size, with the value read as in Spec_Integer. *)
From Coq Require Import List String Ascii Bool Arith ZArith.
From Verif Require Import Base GoStr GoFloat Types Json StrUtils Validate Prepare Eval Lifecycle
  Spec_Tree Tree_laws Spec_Regex Spec_Glob Spec_Leaf Number_proofs Leaf_laws Attr_proofs Spec_Integer Integer_proofs.
Open Scope string_scope.

Lemma size_condition : forall L p method value ret c v k m, NumberSpec L ->
  prepares L p "payloadSize" method value ret c -> replaced p method value v -> method_is method k ->
  (forall b, may_return L (NCond c) m b -> (b = true <-> exists z, integer_text v z /\ int_holds k (m_size m) z)) /\
  (may_panic L (NCond c) m <-> In k number_kinds /\ ~ exists z, integer_text v z).
Proof.
  intros L p method value ret c v k m HN HP HR HK. destruct (size_attribute L p method value ret c v k m HN HP HR HK) as [H1 H2].
  split.
  - intros b HB. rewrite (H1 b HB). split; intros (z & HZ & HH); exists z; split; auto; apply parse_int_iff; exact HZ.
  - rewrite H2, parse_int_none. reflexivity.
Qed.
