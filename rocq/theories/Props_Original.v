(** C62: the fast and the original way of splitting the bytes of an array. *)
From Coq Require Import List String Ascii Bool Arith ZArith.
From Verif Require Import Base GoStr GoFloat Types Json Eval Spec_Tree Spec_Glob Spec_Json Json_proofs Spec_Load Spec_Split Raw_pieces Original
  Spec_Original Original_proofs RefLib Samples.
Import ListNotations.
Open Scope string_scope.

(** ** C62 *)
(** [same_text], [same_value], [numbers_kept], [an_object] (Spec_Original), [braceless_strings] (Spec_Split).
    On an array both return texts of the same values, one by one, exactly when all its elements are objects. *)
Theorem C62_array : forall L t vs, json_parse L t = Some (GArr vs) -> Forall (numbers_kept L) vs -> braceless_strings t ->
  (Forall an_object vs <-> exists ts us, split_objects t = Some ts /\ split_original L t = Some us /\ Forall2 (same_text L) ts us).
Proof. exact split_agree. Qed.
Print Assumptions C62_array.
(** On bytes written by json.Marshal they return the same bytes: those json.Marshal writes for the elements. *)
Theorem C62_marshalled : forall L vs t, Forall go_value vs -> Forall an_object vs -> Forall (numbers_kept L) vs ->
  json_marshal L (GArr vs) = Some t -> braceless_strings t ->
  exists us, Forall2 (fun v u => json_marshal L v = Some u) vs us /\ split_objects t = Some us /\ split_original L t = Some us.
Proof. exact marshalled_same. Qed.
Print Assumptions C62_marshalled.
(** The original fails on all but arrays and null, the fast one on what begins with a brace only. *)
Theorem C62_errors : forall L t, (forall vs, document L (GArr vs) t -> Forall (numbers_kept L) vs) ->
  (split_original L t = None <-> ~ document L GNil t /\ ~ exists vs, document L (GArr vs) t) /\ (split_objects t = None <-> starts "{" t).
Proof. exact split_errors. Qed.
Print Assumptions C62_errors.
(** so the fast one accepts texts that are no JSON, *)
Theorem C62_invalid_refuted : exists t ts, split_objects t = Some ts /\ ts <> [] /\ split_original RefLib t = None /\ forall v, ~ document RefLib v t.
Proof.
  exists "[{]}", ["{]}"]. split; [reflexivity|]. split; [discriminate|]. split; [vm_compute; reflexivity|].
  intros v H. apply parse_iff in H. vm_compute in H. discriminate H.
Qed.
Print Assumptions C62_invalid_refuted.
(** leaves out scalars, *)
Theorem C62_scalars_refuted : exists t, split_objects t = Some [] /\ split_original RefLib t = Some ["true"; quotes "'x'"].
Proof. exists (quotes "[true,'x']"). split; vm_compute; reflexivity. Qed.
Print Assumptions C62_scalars_refuted.
(** and replaces an inner array by its objects, so that the numbers of elements agree although the elements do not. *)
Theorem C62_nested_refuted : exists t, split_objects t = Some ["{}"; "{}"] /\ split_original RefLib t = Some ["[{},{}]"; "null"].
Proof. exists "[[{},{}],null]". split; vm_compute; reflexivity. Qed.
Print Assumptions C62_nested_refuted.

(** spaces, a repeated key, unsorted keys and numbers *)
Definition splits (s : string) : option (list string) * option (list string) := (split_objects (quotes s), split_original RefLib (quotes s)).
Example C62_case : splits " [ {'b':1.5,'a':[{}],'b' : 2} , { } ]" =
  (Some [quotes "{'b':1.5,'a':[{}],'b' : 2}"; "{ }"], Some [quotes "{'a':[{}],'b':2}"; "{}"]).
Proof. vm_compute. reflexivity. Qed.
Example C62_hypotheses_case :
  let t := quotes "[{'b':2,'a':[{}]},{}]" in
  exists f, json_parse RefLib t = Some (GArr [GMapS [("b", GFloat f); ("a", GArr [GMapS []])]; GMapS []]) /\
  Forall (numbers_kept RefLib) [GMapS [("b", GFloat f); ("a", GArr [GMapS []])]; GMapS []] /\ braceless_strings t /\
  Forall an_object [GMapS [("b", GFloat f); ("a", GArr [GMapS []])]; GMapS []].
Proof.
  eexists. split; [vm_compute; reflexivity|].
  assert (D : forall c, Ascii.eqb c dq = false -> c <> dq) by (intros c E ->; rewrite Ascii.eqb_refl in E; discriminate).
  assert (B : forall c, Ascii.eqb c bslash = false -> c <> bslash) by (intros c E ->; rewrite Ascii.eqb_refl in E; discriminate).
  assert (S : forall c s, Ascii.eqb c dq = false -> Ascii.eqb c bslash = false -> ~ brace c -> braceless_strings s -> braceless_strings (String dq (String c "" ++ String dq s))).
  { intros c s E1 E2 E3 HB. apply bs_string; auto; [|split; [auto|exact I]]. apply lt_char; [apply D; auto|apply B; auto|constructor]. }
  split; [|split].
  - repeat (constructor; cbn [snd fst]). apply (nk_number RefLib _ "2"); [vm_compute; reflexivity| |vm_compute; reflexivity].
    exists "", "2", "", "". split; [left; auto|]. split.
    { split; [split; [discriminate|split; [|exact I]]|right; intros [r E]; discriminate E]. split; vm_compute; repeat constructor. }
    split; [left; auto|]. split; [left; auto|reflexivity].
  - change (quotes "[{'b':2,'a':[{}]},{}]") with ("[{" ++ String dq (String "b" "" ++ String dq (":2," ++ String dq (String "a" "" ++ String dq ":[{}]},{}]")))).
    repeat (apply bs_char; [apply D; reflexivity|]). apply S; [reflexivity|reflexivity|intros [E|E]; discriminate E|].
    cbn [append]. repeat (apply bs_char; [apply D; reflexivity|]). apply S; [reflexivity|reflexivity|intros [E|E]; discriminate E|].
    repeat (apply bs_char; [apply D; reflexivity|]). constructor.
  - repeat constructor; eexists; reflexivity.
Qed.
