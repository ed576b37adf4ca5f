(** C07-C10: sender, receiver, operation, protocol and resource of a rule. *)
From Coq Require Import List String Ascii Bool Arith ZArith.
From Verif Require Import Base GoStr GoFloat Types Json StrUtils Validate Prepare Parse Marshal Eval Lifecycle Check
  Spec_Regex Spec_Glob Spec_Match Match_proofs Glob_proofs Names_proofs Ref_Regex RefLib RefLib_facts Samples.
Import ListNotations.
Open Scope string_scope.

(** ** C07 *)
Theorem C07_sender_names : forall L, RegexSpec L -> forall p r r' m,
  ru_converted r = false -> prepare_rule L p r = Ok r' ->
  In (ru_sender_type r) ["*"; "workload"] -> pattern_ok (ru_sender_name r') -> ascii_text (m_source_service m) ->
  (sender_matches L r' m <-> name_accepts (ru_sender_name r') (m_source_service m)).
Proof. exact sender_names. Qed.
Print Assumptions C07_sender_names.

Theorem C07_receiver_names : forall L, RegexSpec L -> forall p r r' m,
  ru_converted r = false -> prepare_rule L p r = Ok r' ->
  In (ru_receiver_type r) ["*"; "workload"] -> pattern_ok (ru_receiver_name r') -> ascii_text (m_dest_service m) ->
  (receiver_matches L r' m <-> name_accepts (ru_receiver_name r') (m_dest_service m)).
Proof. exact receiver_names. Qed.
Print Assumptions C07_receiver_names.

Theorem C07_receiver_hosts : forall L, RegexSpec L -> forall p r r' m,
  ru_converted r = false -> prepare_rule L p r = Ok r' ->
  ru_receiver_type r = "hostname" -> pattern_ok (ru_receiver_name r') -> ascii_text (m_host m) ->
  (receiver_matches L r' m <-> name_accepts (ru_receiver_name r') (m_host m)).
Proof. exact receiver_hosts. Qed.
Print Assumptions C07_receiver_hosts.

Theorem C07_sender_other_type : forall L p r r' m, ru_converted r = false -> prepare_rule L p r = Ok r' ->
  ~ In (ru_sender_type r) ["*"; "workload"; "subnet"] -> ~ sender_matches L r' m.
Proof. exact sender_other_type. Qed.
Print Assumptions C07_sender_other_type.

Theorem C07_receiver_other_type : forall L p r r' m, ru_converted r = false -> prepare_rule L p r = Ok r' ->
  ~ In (ru_receiver_type r) ["*"; "workload"; "subnet"; "hostname"] -> ~ receiver_matches L r' m.
Proof. exact receiver_other_type. Qed.
Print Assumptions C07_receiver_other_type.

(** such names always prepare *)
Theorem C07_names_prepare : forall L, RegexSpec L -> forall ty name,
  ty <> "subnet" -> pattern_ok name -> exists xs, expand L name ty = Ok xs.
Proof. exact names_prepare. Qed.
Print Assumptions C07_names_prepare.

(** a rule, prepared without predefined strings *)
Definition prepared_of (r : rule RefLib) : option (rule RefLib) :=
  match prepare_rule RefLib empty_predef r with Ok r' => Some r' | _ => None end.
Definition c07_rule : rule RefLib :=
  sample_rule "db.*, fr?nt.e*" "workload" "*.com" "hostname" "HTTP" "path" "/a/*" "write" None "block".
Definition c07_results : option (option bool * option bool * option bool * string) :=
  option_map (fun r => (test_sender RefLib r msg0, test_receiver RefLib r msg0, test_resource RefLib r msg0, ru_sender_name r))
    (prepared_of c07_rule).

Lemma pattern_okb s : forallb (fun c => (nat_of_ascii c <? 128)%nat &&
   negb (existsb (Ascii.eqb c) ["\"; "+"; "("; ")"; "|"; "["; "]"; "{"; "}"]%char)) (list_ascii_of_string s) = true -> pattern_ok s.
Proof.
  unfold pattern_ok, pattern_char. induction s as [|c s IH]; cbn [list_ascii_of_string forallb all_chars]; auto. intro H.
  apply andb_prop in H. destruct H as [H H2]. apply andb_prop in H. destruct H as [H H1]. split; [|auto]. split.
  - apply Nat.ltb_lt. exact H.
  - intro HI. apply negb_true_iff in H1. rewrite <- not_true_iff_false in H1. apply H1. apply existsb_exists.
    exists c. split; auto. apply Ascii.eqb_refl.
Qed.

Example C07_case : RegexSpec RefLib /\ In (ru_sender_type c07_rule) ["*"; "workload"] /\
  pattern_ok (ru_sender_name c07_rule) /\
  c07_results = Some (Some true, Some true, Some true, "db.*, fr?nt.e*").
Proof.
  split; [exact RefLib_regex|]. split; [simpl; auto|]. split; [apply pattern_okb; vm_compute; reflexivity|].
  vm_compute. reflexivity.
Qed.

(** ** C08 *)
Theorem C08_sender_subnets : forall L p r r' m,
  ru_converted r = false -> prepare_rule L p r = Ok r' -> ru_sender_type r = "subnet" ->
  (sender_matches L r' m <->
   exists items, comma_items (ru_sender_name r') items /\
     Exists (fun item => subnet_item L item (m_source_ip m) (m_source_netip m)) items).
Proof. exact sender_subnets. Qed.
Print Assumptions C08_sender_subnets.

Theorem C08_receiver_subnets : forall L p r r' m,
  ru_converted r = false -> prepare_rule L p r = Ok r' -> ru_receiver_type r = "subnet" ->
  (receiver_matches L r' m <->
   exists items, comma_items (ru_receiver_name r') items /\
     Exists (fun item => subnet_item L item (m_dest_ip m) (m_dest_netip m)) items).
Proof. exact receiver_subnets. Qed.
Print Assumptions C08_receiver_subnets.

Theorem C08_items_valid : forall L p r r', ru_converted r = false -> prepare_rule L p r = Ok r' ->
  (ru_sender_type r = "subnet" -> forall items, comma_items (ru_sender_name r') items -> Forall (address_or_network L) items) /\
  (ru_receiver_type r = "subnet" -> forall items, comma_items (ru_receiver_name r') items -> Forall (address_or_network L) items).
Proof. exact subnet_items_valid. Qed.
Print Assumptions C08_items_valid.

(** the containment test is agreement on the network bits *)
Theorem C08_contains : forall n i, proper_network n -> (ip_contains n i = true <-> in_network n i).
Proof. exact ip_contains_iff. Qed.
Print Assumptions C08_contains.

Theorem C08_no_address : forall n, proper_network n -> ~ in_network n [].
Proof. exact no_address_no_network. Qed.
Print Assumptions C08_no_address.

Definition c08_result (name : string) (netip : ip) : option (option bool) :=
  option_map (fun r => test_sender_list RefLib (ru_sender_list r)
     (mkMessage "10.1.2.3" "" "" "" "" "" "" "" "" "" 0 "" "" "" "" "" "" "" "" "" "" None None None None None "" f_zero f_zero f_zero
        netip [] [] []))
    (prepared_of (sample_rule name "subnet" "*" "*" "*" "*" "*" "*" None "allow")).
Example C08_case : CidrSpec RefLib /\
  map (fun n => c08_result n [10; 1; 2; 3]%Z) ["10.1.0.0/16"; "10.2.0.0/16"; "10.1.2.3"; "10.9.9.9,10.1.2.0/30"; "*"; "10.1.2.4"]
    = [Some (Some true); Some (Some false); Some (Some true); Some (Some true); Some (Some true); Some (Some false)] /\
  c08_result "*" [] = Some (Some false) /\ c08_result "host" [10; 1; 2; 3]%Z = None.
Proof. split; [exact RefLib_cidr|]. vm_compute. repeat split. Qed.

(** ** C09 *)
Theorem C09_operation : forall L, RegexSpec L -> forall p r r' m,
  ru_converted r = false -> prepare_rule L p r = Ok r' ->
  pattern_ok (ru_operation r) -> ascii_text (m_method m) ->
  (operation_matches L r' m <-> operation_accepts (ru_operation r) (m_method m)).
Proof. exact operation_texts. Qed.
Print Assumptions C09_operation.

(** no method is both read and write *)
Theorem C09_disjoint : forall method, operation_accepts "read" method -> operation_accepts "write" method -> False.
Proof. exact read_write_disjoint. Qed.
Print Assumptions C09_disjoint.

Definition c09_result (op method : string) : option bool :=
  match re_compile RefLib (convert_operation op) with Some re => Some (re_match RefLib re method) | None => None end.
Example C09_case : map (c09_result "read") ["GET"; "POST"; "TRACE"; "GETX"] = [Some true; Some false; Some true; Some false] /\
  map (c09_result "WRITE") ["DELETE"; "PATCH"] = [Some true; Some false] /\
  map (c09_result "GE*, P?T") ["GET"; "PUT"; "POST"] = [Some true; Some true; Some false].
Proof. vm_compute. repeat split. Qed.

(** ** C10 *)
Theorem C10_resource : forall L, RegexSpec L -> forall p r r' m,
  ru_converted r = false -> prepare_rule L p r = Ok r' ->
  pattern_ok (ru_resource_name r) -> ascii_text (m_path m) -> ascii_text (m_dest_port m) ->
  (resource_matches L r' m <->
     (ru_protocol r = "tcp" /\ list_accepts (ru_resource_name r) (m_dest_port m))
     \/ ru_protocol r = "*"
     \/ (ru_protocol r <> "tcp" /\ ru_protocol r <> "*" /\
         same_folded (m_protocol m) (ru_protocol r) /\
         (ru_resource_type r = "*" \/ m_context_type m = ru_resource_type r) /\
         list_accepts (ru_resource_name r) (m_path m))).
Proof. exact resource_texts. Qed.
Print Assumptions C10_resource.

Definition c10_result (proto rty rname : string) : option (option bool) :=
  option_map (fun r => test_resource RefLib r msg0)
    (prepared_of (sample_rule "*" "*" "*" "*" proto rty rname "*" None "allow")).
Example C10_case :
  c10_result "tcp" "port" "80, 443" = Some (Some true) /\ c10_result "tcp" "port" "8" = Some (Some false) /\
  c10_result "http" "path" "/a/*" = Some (Some true) /\ c10_result "http" "port" "/a/*" = Some (Some false) /\
  c10_result "http" "*" "/b*" = Some (Some false) /\ c10_result "TCP" "*" "80" = Some (Some false).
Proof. vm_compute. repeat split. Qed.
(** letters of either case, and the Kelvin sign and the long s of Unicode *)
Example C10_letters :
  let kelvin := String "226" (String "132" (String "170" "")) in
  let long_s := String "197" (String "191" "") in
  map (fun e => equal_fold (fst e) (snd e))
    [("HTTPS", "https"); (kelvin ++ "AFKA", "Kafka"); ("http" ++ long_s, "HTTPS"); (kelvin, "s"); (String "226" (String "132" ""), "k"); ("kk", kelvin)] =
    [true; true; true; false; false; false] /\
  same_folded (kelvin ++ "AFKA") "Kafka" /\ ~ same_folded (kelvin ++ "AFKA") "afka".
Proof.
  cbv zeta. split; [vm_compute; reflexivity|]. split.
  - apply equal_fold_iff. vm_compute. reflexivity.
  - rewrite <- equal_fold_iff. vm_compute. discriminate.
Qed.
