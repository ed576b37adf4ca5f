(** C68: a conditions tree evaluated as it was loaded, without being prepared. *)
From Coq Require Import List String Ascii Bool Arith ZArith.
From Verif Require Import Base GoStr GoFloat Types Json StrUtils Validate Prepare Parse Lifecycle Eval Spec_Tree Spec_Load Load_proofs Spec_Grammar Spec_Early Early_proofs RefLib RefLib_facts Samples Props_Load.
Import ListNotations.
Open Scope string_scope.

(** ** C68 *)
(** [early] (Spec_Early): the value of a tree on a message, [None] for a panic.  The message is left alone, nothing is returned beside the value,
    and the order of iteration does not matter *)
Theorem C68_value : forall L ord ord' v t n t' s r, fair ord -> go_value v -> parse_conditions_tree L ord v t = (Ok n, t') ->
  (early L (e_msg s) n r <-> eval L ord' n s = (option_map (fun b => (b, [])) r, s)).
Proof. exact early_exact. Qed.
Print Assumptions C68_value.
Theorem C68_total : forall L ord v t n t' m, fair ord -> go_value v -> parse_conditions_tree L ord v t = (Ok n, t') -> exists r, early L m n r.
Proof. exact early_total. Qed.
Print Assumptions C68_total.
Theorem C68_unique : forall L ord v t n t' m r r', fair ord -> go_value v -> parse_conditions_tree L ord v t = (Ok n, t') -> early L m n r -> early L m n r' -> r = r'.
Proof. exact early_unique. Qed.
Print Assumptions C68_unique.

(** ** Concrete trees *)
Definition early_cond (att method value : string) : iface := GMapS [("attribute", GStr att); ("method", GStr method); ("value", GStr value)].
Definition early_tree (v : iface) : option (node RefLib) := match parse_conditions_tree RefLib in_order v 0 with (Ok n, _) => Some n | _ => None end.
(** before and after preparing; [Some None]: a panic *)
Definition early_values (v : iface) (m : message) : option (option bool) * option (option bool) :=
  let value n := option_map fst (fst (eval RefLib in_order n (mkEst m 0))) in
  match early_tree v with
  | Some n => (Some (value n), match prepare_node RefLib empty_predef n with Ok n' => Some (value n') | _ => None end)
  | None => (None, None)
  end.
Definition early_list (k : string) (l : list iface) : iface := GMapS [(k, GArr l)].
Definition early_any (k : string) (v : iface) : iface := GMapS [(k, GMapS [("parentJsonpathAttribute", GStr "jsonpath:$.x[:]"); ("condition", v)])].
Lemma early_go att method value : go_value (early_cond att method value).
Proof.
  apply gv_mapS.
  - cbn [keys map fst]. repeat constructor; simpl; intuition discriminate.
  - repeat constructor.
Qed.
Definition early_msg : message := set_raw msg0 (json_parse RefLib (quotes "{'x':[{'a':1}]}")).
Example C68_conditions :
  map (fun e => early_values (early_cond (fst (fst e)) (snd (fst e)) (snd e)) early_msg)
    [("requestUseragent", "EQ", "curl.*"); ("requestUseragent", "NEQ", "curl.*"); ("requestUseragent", "RE", "curl.*"); ("requestUseragent", "NRE", "curl.*");
     ("requestUseragent", "EX", ""); ("domain", "EX", ""); ("domain", "NEX", ""); ("domain", "NIN", "[a,b]"); ("payloadSize", "GE", "100"); ("payloadSize", "GE", "1Ki"); ("payloadSize", "EX", "");
     ("utcHoursFromMidnight", "LT", "1Ki"); ("encryptionVersion", "EQ", "1"); ("true", "EQ", "x"); ("jsonpath:$.x", "EX", ""); ("$receiver.namespace", "NEQ", "a")] =
    [(Some (Some false), Some (Some true)); (Some (Some true), Some (Some false)); (Some (Some false), Some (Some true)); (Some (Some true), Some (Some false));
     (Some (Some true), Some (Some true)); (Some (Some false), Some (Some false)); (Some (Some true), Some (Some true)); (Some (Some false), Some (Some true)); (Some (Some true), Some (Some true)); (Some None, Some None); (Some (Some false), Some (Some false));
     (Some (Some true), Some (Some true)); (Some None, Some None); (Some (Some true), Some (Some true)); (Some (Some false), Some (Some true)); (Some (Some false), Some (Some true))].
Proof. vm_compute. reflexivity. Qed.
Example C68_trees :
  early_values (early_list "NOT" [early_any "ANY" (early_cond "jsonpath:$RELATIVE.a" "EQ" "1")]) early_msg = (Some (Some true), Some (Some false)) /\
  early_values (early_any "ALL" (early_cond "jsonpath:$RELATIVE.a" "EQ" "1")) early_msg = (Some (Some false), Some (Some true)) /\
  early_values (early_list "AND" [early_cond "domain" "EQ" "x"; early_cond "encryptionVersion" "EQ" "1"]) early_msg = (Some (Some false), Some (Some false)) /\
  early_values (early_list "OR" [early_cond "domain" "NEQ" "x"; early_cond "encryptionVersion" "EQ" "1"]) early_msg = (Some None, Some None) /\
  early_values (early_list "OR" [early_cond "domain" "EQ" "x"; early_cond "domain" "NEX" ""]) early_msg = (Some (Some true), Some (Some true)) /\
  early_values (early_list "NOT" []) early_msg = (Some None, None).
Proof. repeat split; vm_compute; reflexivity. Qed.
(** the theorems apply to these *)
Example C68_case : exists n t', fair in_order /\ go_value (early_cond "requestUseragent" "NEQ" "curl.*") /\
  parse_conditions_tree RefLib in_order (early_cond "requestUseragent" "NEQ" "curl.*") 0 = (Ok n, t') /\ early RefLib early_msg n (Some true).
Proof.
  assert (H : fst (early_values (early_cond "requestUseragent" "NEQ" "curl.*") early_msg) = Some (Some true)) by (vm_compute; reflexivity).
  unfold early_values, early_tree in H.
  destruct (parse_conditions_tree RefLib in_order (early_cond "requestUseragent" "NEQ" "curl.*") 0) as [[n| |] t'] eqn:E; try discriminate H. exists n, t'.
  split; [exact in_order_fair|]. split; [apply early_go|]. split; [reflexivity|]. injection H as H.
  destruct (C68_total RefLib in_order _ 0 n t' early_msg in_order_fair (early_go _ _ _) E) as [r HR].
  pose proof (proj1 (C68_value RefLib in_order in_order _ 0 n t' (mkEst early_msg 0) r in_order_fair (early_go _ _ _) E) HR) as HV. rewrite HV in H.
  destruct r as [b|]; cbn in H; [|discriminate]. injection H as ->. exact HR.
Qed.
(** so preparing a tree matters *)
Theorem C68_prepared_refuted : ~ (forall L ord v t n t' n' s, fair ord -> go_value v -> parse_conditions_tree L ord v t = (Ok n, t') -> prepare_node L empty_predef n = Ok n' ->
  fst (eval L ord n' s) = fst (eval L ord n s)).
Proof.
  intro H. assert (HV : early_values (early_cond "requestUseragent" "EQ" "curl.*") early_msg = (Some (Some false), Some (Some true))) by (vm_compute; reflexivity).
  unfold early_values, early_tree in HV.
  destruct (parse_conditions_tree RefLib in_order (early_cond "requestUseragent" "EQ" "curl.*") 0) as [[n| |] t'] eqn:E; try discriminate HV.
  destruct (prepare_node RefLib empty_predef n) as [n'| |] eqn:EP; try discriminate HV.
  pose proof (H RefLib in_order _ 0 n t' n' (mkEst early_msg 0) in_order_fair (early_go _ _ _) E EP) as HE. rewrite HE in HV. destruct (fst (eval RefLib in_order n (mkEst early_msg 0))); cbn in HV; congruence.
Qed.
Print Assumptions C68_prepared_refuted.
