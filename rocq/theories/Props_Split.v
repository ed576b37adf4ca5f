(** C37, C38: the elements ANY/ALL range over, on raw bytes and on parsed documents. *)
From Coq Require Import List String Ascii Bool Arith ZArith.
From Verif Require Import Base GoStr GoFloat Types Json StrUtils Validate Prepare Parse Marshal Eval Spec_Tree Spec_Glob Spec_Json Json_proofs Spec_Split
  Split_proofs Spec_Names Spec_Raw Raw_pieces Tree_proofs Tree_truth Arrange_proofs RefLib RefLib_facts Samples.
Import ListNotations.
Open Scope string_scope.

(** ** C37 *)
(** [text], [spaces] (Spec_Json), [spaced], [braceless_strings], [objects_in] (Spec_Split).
    The text of an array of objects is split into the texts of its elements. *)
Theorem C37_array : forall L vs w1 t w2, spaces w1 -> spaces w2 -> text L (GArr vs) t -> Forall (fun v => exists m, v = GMapS m) vs ->
  braceless_strings (w1 ++ t ++ w2) ->
  exists ts, split_objects (w1 ++ t ++ w2) = Some ts /\ Forall2 (text L) vs ts /\
    ((vs = [] /\ exists w, spaces w /\ t = "[" ++ w ++ "]") \/ (exists s, spaced ts s /\ t = "[" ++ s ++ "]")).
Proof. exact split_array. Qed.
Print Assumptions C37_array.
(** which decode to the elements *)
Theorem C37_decoded : forall L vs t, json_parse L t = Some (GArr vs) -> Forall (fun v => exists m, v = GMapS m) vs -> braceless_strings t ->
  exists ts, split_objects t = Some ts /\ Forall2 (fun v o => json_parse L o = Some v) vs ts.
Proof. exact split_decoded. Qed.
Print Assumptions C37_decoded.
(** of any other array the outermost objects at any depth of arrays, other members being skipped; of a scalar nothing *)
Theorem C37_general : forall L v w1 t w2, spaces w1 -> spaces w2 -> text L v t -> (forall m, v <> GMapS m) -> braceless_strings (w1 ++ t ++ w2) ->
  exists os, objects_in L t os /\ split_objects (w1 ++ t ++ w2) = Some os.
Proof.
  intros L v w1 t w2 H1 H2 HT HM HB. destruct (proj1 (objects_exist L) _ _ HT) as [os HO]. exists os. split; auto. eapply split_text; eauto.
Qed.
Print Assumptions C37_general.
Theorem C37_object : forall L m t, text L (GMapS m) t -> split_objects t = None.
Proof. exact split_object. Qed.
Print Assumptions C37_object.
(** on any text: the stretches between braces that first open and then close again at depth zero, by counting braces alone;
    [pieces] (Spec_Raw) *)
Theorem C37_pieces : forall u os, split_objects u = Some os <-> ~ starts "{" u /\ pieces u os.
Proof. exact split_pieces. Qed.
Print Assumptions C37_pieces.
(** a brace inside a string breaks it *)
Theorem C37_brace_refuted : exists t v ts, json_parse RefLib t = Some (GArr [v]) /\ (exists m, v = GMapS m) /\
  split_objects t = Some ts /\ Forall (fun o => json_parse RefLib o <> Some v) ts.
Proof.
  exists (quotes "[{'a':'}','b':null}]"), (GMapS [("a", GStr "}"); ("b", GNil)]), [quotes "{'a':'}"].
  split; [vm_compute; reflexivity|]. split; [eauto|]. split; [vm_compute; reflexivity|]. repeat constructor. vm_compute. discriminate.
Qed.
Print Assumptions C37_brace_refuted.

Example C37_case : split_objects (quotes "[ {'a':[{'x':{}}]} , {} ,1,'s',[{'b':null}, 2]]") = Some [quotes "{'a':[{'x':{}}]}"; "{}"; quotes "{'b':null}"].
Proof. vm_compute. reflexivity. Qed.
(** a text whose strings contain no braces *)
Definition brace_text : string := quotes "[{'a\'b':'x'}]".
Example C37_strings_case : braceless_strings brace_text /\ json_parse RefLib brace_text = Some (GArr [GMapS [(quotes "a'b", GStr "x")]]) /\
  split_objects brace_text = Some [quotes "{'a\'b':'x'}"].
Proof.
  split; [|split; vm_compute; reflexivity].
  assert (D : forall c, Ascii.eqb c dq = false -> c <> dq) by (intros c E ->; rewrite Ascii.eqb_refl in E; discriminate).
  assert (B : forall c, Ascii.eqb c bslash = false -> c <> bslash) by (intros c E ->; rewrite Ascii.eqb_refl in E; discriminate).
  change brace_text with ("[{" ++ String dq (quotes "a\'b" ++ String dq (":" ++ String dq ("x" ++ String dq "}]")))).
  repeat (apply bs_char; [apply D; reflexivity|]). apply bs_string.
  - change (quotes "a\'b") with (String "a" (String bslash (String dq "b"))).
    apply lt_char; [apply D; reflexivity|apply B; reflexivity|]. apply lt_escape. apply lt_char; [apply D; reflexivity|apply B; reflexivity|constructor].
  - repeat split; intros [H|H]; vm_compute in H; discriminate.
  - cbn [append]. apply bs_char; [apply D; reflexivity|]. apply (bs_string "x").
    + apply lt_char; [apply D; reflexivity|apply B; reflexivity|constructor].
    + repeat split; intros [H|H]; vm_compute in H; discriminate.
    + repeat (apply bs_char; [apply D; reflexivity|]). constructor.
Qed.

(** ** C38 *)
Theorem C38_array : forall ord l s, exists es, arrange ord (GArr l) s = (Some es, s) /\
  ((exists ls, l = map GArr ls /\ es = List.concat ls) \/ ((~ exists ls, l = map GArr ls) /\ es = l)).
Proof. exact arrange_array. Qed.
Print Assumptions C38_array.
(** nothing changes without nested arrays; in particular a second application has no effect when the inner arrays contain none *)
Theorem C38_flat : forall ord l s, Forall (fun v => forall x, v <> GArr x) l -> arrange ord (GArr l) s = (Some l, s).
Proof. exact arrange_flat. Qed.
Print Assumptions C38_flat.
Theorem C38_idempotent : forall ord l s es s', arrange ord (GArr l) s = (Some es, s') ->
  (forall x v y, In (GArr x) l -> In v x -> v <> GArr y) -> arrange ord (GArr es) s' = (Some es, s').
Proof. exact arrange_idempotent. Qed.
Print Assumptions C38_idempotent.
(** objects become one object per entry, null nothing, scalars panic *)
Theorem C38_other : forall ord v s, fair ord ->
  (fst (arrange ord v s) = None <-> (forall m, v <> GMapS m) /\ (forall l, v <> GArr l) /\ v <> GNil) /\
  (forall es s', arrange ord v s = (Some es, s') -> (v = GNil -> es = []) /\ (forall m, v = GMapS m -> entries m es)).
Proof.
  intros ord v s HF. split; [apply arrange_panics|]. intros es s' H. pose proof (arrange_arranged ord v s es s' HF H) as HA.
  split; intros; subst; inversion HA; auto.
Qed.
Print Assumptions C38_other.

Definition arranged_texts (s : string) : option (option (list iface)) :=
  option_map (fun v => fst (arrange in_order v (mkEst msg0 0))) (json_parse RefLib (quotes s)).
Example C38_case : arranged_texts "[[{'a':null},true],[],[[null]]]" = Some (Some [GMapS [("a", GNil)]; GBool true; GArr [GNil]]) /\
  arranged_texts "[[null],true]" = Some (Some [GArr [GNil]; GBool true]) /\ arranged_texts "[]" = Some (Some []) /\
  arranged_texts "{'a':null,'b':[]}" = Some (Some [GMapS [("a", GNil)]; GMapS [("b", GArr [])]]) /\ arranged_texts "true" = Some None.
Proof. repeat split; vm_compute; reflexivity. Qed.
(** deeper nesting: only one level is removed, so a second application removes another *)
Theorem C38_deep_refuted : exists l s es, arrange in_order (GArr l) s = (Some es, s) /\ arrange in_order (GArr es) s <> (Some es, s).
Proof. exists [GArr [GArr [GNil]]], (mkEst msg0 0), [GArr [GNil]]. split; [reflexivity|discriminate]. Qed.
Print Assumptions C38_deep_refuted.
