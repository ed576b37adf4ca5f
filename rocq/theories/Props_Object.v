(** C48: the entries of an object read from a JSON text. *)
From Coq Require Import List String Ascii Bool Arith ZArith.
From Verif Require Import Base GoStr GoFloat Types Json Spec_Json Spec_Object Object_proofs RefLib Samples.
Import ListNotations.
Open Scope string_scope.

(** [members] (Spec_Json): the keys and values in the order of the text; of a repeated key the last value counts *)
Theorem C48_object : forall L s m, json_parse L s = Some (GMapS m) ->
  exists w1 w2, spaces w1 /\ spaces w2 /\
    ((exists w, spaces w /\ s = w1 ++ ("{" ++ w ++ "}") ++ w2 /\ m = []) \/
     (exists kvs t, members L kvs t /\ s = w1 ++ ("{" ++ t ++ "}") ++ w2 /\ NoDup (map fst m) /\ forall k v, In (k, v) m <-> last_under k v kvs)).
Proof. exact object_entries. Qed.
Print Assumptions C48_object.

Example C48_object_case :
  json_parse RefLib (quotes " {'a':true,'b':null,'a':false}") = Some (GMapS [("a", GBool false); ("b", GNil)]) /\
  last_under "a" (GBool false) [("a", GBool true); ("b", GNil); ("a", GBool false)] /\
  ~ last_under "a" (GBool true) [("a", GBool true); ("b", GNil); ("a", GBool false)].
Proof.
  pose proof (collected [("a", GBool true); ("b", GNil); ("a", GBool false)]) as [_ H]. rewrite <- !H.
  split; [vm_compute; reflexivity|]. cbn. split; [auto|]. intuition discriminate.
Qed.
