(** C69: rules that match everything, and what the documentation says about types, lists and verbs. *)
From Coq Require Import List String Ascii Bool Arith ZArith.
From Verif Require Import Base GoStr GoFloat Types Json StrUtils Validate Prepare Parse Marshal Lifecycle Eval Check
  Spec_Tree Tree_truth Tree_laws Spec_Decision Spec_Regex Spec_Glob Glob_proofs Spec_Match Spec_Copy Spec_Meaning Spec_Documented Documented_proofs
  RefLib RefLib_facts Samples Props_Match Props_Meaning.
Import ListNotations.
Open Scope string_scope.

(** a catch-all rule anywhere in the list gives its decision to every message whose service names are on one line *)
Theorem C69_catch_all : forall L ord g before r after m t d o e, CidrSpec L -> RegexSpec L -> ascii_message m -> catch_all L r -> decision_word (ru_decision r) d ->
  check L ord g (before ++ load_rule L r :: after)%list (mkEst m t) = (Some o, e) ->
  (plainly_named m -> nth_error (out_results o) (List.length before) = Some d /\ d <= out_decision o) /\
  (~ plainly_named m -> nth_error (out_results o) (List.length before) = Some 0).
Proof. intros L ord g before r after m t d o e HC HR. exact (catch_all_checked L HC HR ord g before r after m t d o e). Qed.
Print Assumptions C69_catch_all.

Theorem C69_blocks : forall L ord g before r after m t o e, CidrSpec L -> RegexSpec L -> ascii_message m -> plainly_named m -> catch_all L r -> ru_decision r = "block" ->
  check L ord g (before ++ load_rule L r :: after)%list (mkEst m t) = (Some o, e) -> out_decision o = 3 /\ out_string o = "block".
Proof. intros L ord g before r after m t o e HC HR. exact (catch_all_blocks L HC HR ord g before r after m t o e). Qed.
Print Assumptions C69_blocks.

(** the blacklist of the documentation: [default_allow] before rules that only block *)
Theorem C69_default_allow : forall L ord g r rules m t o e, CidrSpec L -> RegexSpec L -> ascii_message m -> plainly_named m -> catch_all L r -> ru_decision r = "allow" ->
  (forall s, In s rules -> ru_converted s = false /\ ru_decision s = "block") ->
  check L ord g (map (load_rule L) (r :: rules)) (mkEst m t) = (Some o, e) ->
  exists ds, out_results o = 1 :: ds /\ Forall (fun d => d = 0 \/ d = 3) ds /\
    (In 3 ds -> out_decision o = 3) /\ (~ In 3 ds -> out_decision o = 1).
Proof. intros L ord g r rules m t o e HC HR. exact (default_allow L HC HR ord g r rules m t o e). Qed.
Print Assumptions C69_default_allow.

Theorem C69_returns : forall L ord g r e, CidrSpec L -> RegexSpec L -> fair ord -> catch_all L r -> fst (check_one_rule L ord g (load_rule L r) e) <> None.
Proof. intros L ord g r e HC HR. exact (catch_all_returns L HC HR ord g r e). Qed.
Print Assumptions C69_returns.

(** a rule with a type the engine does not know never applies, whatever its other fields are *)
Theorem C69_types : forall L ord g r e d x s e', CidrSpec L -> ru_converted r = false ->
  ~ In (ru_sender_type r) ["*"; "workload"; "subnet"] \/ ~ In (ru_receiver_type r) ["*"; "workload"; "subnet"; "hostname"] ->
  check_one_rule L ord g (load_rule L r) e = (Some ((d, x), s), e') -> d = 0 /\ x = [].
Proof. intros L ord g r e d x s e' HC. exact (unsupported_type L HC ord g r e d x s e'). Qed.
Print Assumptions C69_types.

(** in particular the type of the documentation's examples *)
Theorem C69_service_refuted : forall L ord g r e d x s e', CidrSpec L -> ru_converted r = false -> ru_sender_type r = documented_type ->
  check_one_rule L ord g (load_rule L r) e = (Some ((d, x), s), e') -> d = 0.
Proof.
  intros L ord g r e d x s e' HC HV HT H. apply (unsupported_type L HC ord g r e d x s e' HV); [|exact H]. left. rewrite HT.
  intros [E|[E|[E|[]]]]; discriminate E.
Qed.
Print Assumptions C69_service_refuted.

(** a name without commas, spaces and wildcards stands for itself only *)
Theorem C69_literal : forall name service, all_chars literal_char name -> (name_accepts name service <-> service = name).
Proof. exact literal_accepts. Qed.
Print Assumptions C69_literal.

(** ** Examples *)
Definition c69_msg (service method : string) : message :=
  mkMessage "10.1.2.3" "" "" "10.9.9.9" "80" "" "" "/a/b" "example.com" method 100 "" "curl/7" "HTTP" "id1"
    service "B.my_namespace" "" "" "path" "" None None None None None "" f_zero f_zero f_zero [10; 1; 2; 3]%Z [10; 9; 9; 9]%Z [] [].
Definition c69_default (d : string) : rule RefLib := sample_rule "*" "*" "*" "*" "*" "*" "*" "*" None d.
Lemma c69_catches d : catch_all RefLib (c69_default d).
Proof.
  constructor; [repeat split; reflexivity|split; [reflexivity|simpl; auto]|split; [reflexivity|simpl; auto]|reflexivity|reflexivity| |reflexivity].
  apply pattern_okb. reflexivity.
Qed.
Definition c69_rule (name type op d : string) : rule RefLib := sample_rule name type "*" "*" "*" "*" "*" op None d.
Definition c69_results (rules : list (rule RefLib)) (m : message) : option (list nat * nat) :=
  option_map (fun o => (out_results o, out_decision o)) (fst (check RefLib in_order empty_predef (map (load_rule RefLib) rules) (mkEst m 0))).

Example C69_case : CidrSpec RefLib /\ RegexSpec RefLib /\ catch_all RefLib (c69_default "allow") /\
  ascii_message (c69_msg "A.my_namespace" "GET") /\ plainly_named (c69_msg "A.my_namespace" "GET") /\
  c69_results [c69_default "allow"; c69_rule "A.*" "workload" "write" "block"] (c69_msg "A.my_namespace" "GET") = Some ([1; 0], 1) /\
  c69_results [c69_default "allow"; c69_rule "A.*" "workload" "write" "block"] (c69_msg "A.my_namespace" "PUT") = Some ([1; 3], 3).
Proof.
  split; [exact RefLib_cidr|]. split; [exact RefLib_regex|]. split.
  - apply c69_catches.
  - split; [apply ascii_messageb_ok; vm_compute; reflexivity|]. split.
    + split; cbn; repeat (split; [discriminate|]); exact I.
    + split; vm_compute; reflexivity.
Qed.

(** a line break in the name of the sender escapes a rule that blocks everything *)
Theorem C69_everything_refuted : exists r m, catch_all RefLib r /\ ru_decision r = "block" /\ ascii_message m /\ c69_results [r] m = Some ([0], 0).
Proof.
  exists (c69_default "block"), (c69_msg ("A" ++ String newline "B") "GET"). split.
  - apply c69_catches.
  - split; [reflexivity|]. split; [apply ascii_messageb_ok; vm_compute; reflexivity|vm_compute; reflexivity].
Qed.
Print Assumptions C69_everything_refuted.

(** the documented separator of lists is an ordinary character: the same list with commas does apply *)
Theorem C69_semicolon_refuted :
  c69_results [c69_rule "A;B" "workload" "*" "block"] (c69_msg "A" "GET") = Some ([0], 0) /\
  c69_results [c69_rule "A,B" "workload" "*" "block"] (c69_msg "A" "GET") = Some ([3], 3).
Proof. split; vm_compute; reflexivity. Qed.
Print Assumptions C69_semicolon_refuted.

(** two of the documented methods do not belong to their verbs; the others do *)
Theorem C69_verbs_refuted : forall verb methods method, In (verb, methods) documented_verbs -> In method methods ->
  (operation_accepts verb method <-> ~ In method ["CONSUME"; "PRODUCE"]) /\
  c69_results [c69_rule "A" "workload" verb "block"] (c69_msg "A" method) =
    Some (if existsb (String.eqb method) ["CONSUME"; "PRODUCE"] then ([0], 0) else ([3], 3)).
Proof.
  intros verb methods method HV HM. split; [exact (documented_methods verb methods method HV HM)|].
  destruct HV as [E|[E|[]]]; injection E as <- <-; repeat (destruct HM as [<-|HM]; [vm_compute; reflexivity|]); destruct HM.
Qed.
Print Assumptions C69_verbs_refuted.
