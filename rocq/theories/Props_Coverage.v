(** C36: the coverage report. *)
From Coq Require Import List String Ascii Bool Arith ZArith Sorted.
From Verif Require Import Base GoStr GoFloat Types Json StrUtils Validate Prepare Parse Marshal Eval Lifecycle Check
  Spec_Tree Spec_Regex Spec_Match Spec_Leaf Spec_Meaning Meaning_rules Coverage_meaning Props_Meaning Spec_Decision Spec_Coverage Coverage_proofs RefLib RefLib_facts Samples.
Import ListNotations.
Open Scope string_scope.

(** [ran], [ids_of] (Coverage_proofs): what Check returns for a message, the ids of the rules;
    [describes_run], [last_with], [contributes] (Spec_Coverage) *)
Theorem C36_report : forall L ord g (rules : list (rstate L)) ms t mc rc, coverage L ord g rules ms t = Some (mc, rc) ->
  exists os, Forall2 (fun m o => exists t' e, check L ord g rules (mkEst m t') = (Some o, e)) ms os /\
  (forall id c, assoc id mc = Some c -> exists o, last_with id (combine ms os) o /\ describes_run (ids_of L rules) o c) /\
  (forall id, assoc id mc = None <-> Forall (fun m => m_id m <> id) ms) /\
  (forall id, In id (ids_of L rules) -> exists parts, assoc id rc = Some (List.concat parts) /\
     Forall2 (contributes (ids_of L rules) id) (combine ms os) parts) /\
  (forall id, ~ In id (ids_of L rules) -> assoc id rc = None).
Proof. exact coverage_ok. Qed.
Print Assumptions C36_report.

(** there is no report (panic) only if Check panics on one of the messages *)
Theorem C36_no_report : forall L ord g (rules : list (rstate L)) ms t, coverage L ord g rules ms t = None ->
  exists m t', In m ms /\ fst (check L ord g rules (mkEst m t')) = None.
Proof. intros L ord g rules ms t H. exact (coverage_none L ord g rules ms _ _ _ H). Qed.
Print Assumptions C36_no_report.

(** the messages listed for a rule id: those some rule of this id applies to *)
Theorem C36_listed : forall L ord g (rules : list (rstate L)) ms t mc rc, coverage L ord g rules ms t = Some (mc, rc) ->
  exists os, Forall2 (fun m o => exists t' e, check L ord g rules (mkEst m t') = (Some o, e)) ms os /\
  forall id l, assoc id rc = Some l -> forall mid, In mid l <->
    exists m o i s, In (m, o) (combine ms os) /\ m_id m = mid /\ In i (out_applied o) /\ nth_error rules i = Some s /\ ru_id (rs_rule s) = id.
Proof. exact coverage_listed. Qed.
Print Assumptions C36_listed.

(** two messages with the same id and a third; the first rule applies to all, the second only to the third *)
Definition with_id (m : message) (id service : string) : message :=
  mkMessage (m_source_ip m) (m_source_namespace m) (m_source_cluster m) (m_dest_ip m) (m_dest_port m)
   (m_dest_namespace m) (m_dest_cluster m) (m_path m) (m_host m) (m_method m) (m_size m) (m_time m)
   (m_useragent m) (m_protocol m) id service (m_dest_service m)
   (m_source_labels_json m) (m_dest_labels_json m) (m_context_type m) (m_enc_type m) (m_enc_version m)
   (m_json m) (m_json_rel m) (m_raw m) (m_raw_rel m) (m_domain m) (m_t_sec m) (m_t_min m) (m_t_hours m)
   (m_source_netip m) (m_dest_netip m) (m_source_labels m) (m_dest_labels m).
Definition id_rule (id sender d : string) : rstate RefLib :=
  load_rule RefLib (mkRule id sender "workload" [] "*" "workload" [] "*" "*" "*" None "*" None d [] "" None false).
Example C36_case :
  coverage RefLib in_order empty_predef [id_rule "a" "*" "allow"; id_rule "b" "x*" "block"; id_rule "c" "nobody" "alert"; id_rule "a" "y" "alert"]
    [with_id msg0 "1" "front"; with_id msg0 "1" "y"; with_id msg0 "2" "xy"] 0 =
  Some ([("1", mkCov true 2 ["a"; "a"] [1; 2]); ("2", mkCov true 3 ["a"; "b"] [1; 3])],
        [("a", ["1"; "1"; "1"; "2"]); ("b", ["2"]); ("c", [])]).
Proof. vm_compute. reflexivity. Qed.
Example C36_uncovered_case : coverage RefLib in_order empty_predef [id_rule "b" "x*" "block"] [with_id msg0 "1" "front"] 0 =
  Some ([("1", mkCov false 0 [] [])], [("b", [])]).
Proof. vm_compute. reflexivity. Qed.

(** the report in terms of the rules as they are written (C54): [decides rules P m]: some rule with [P] applies to the
    message and has one of the decision words (Coverage_meaning) *)
Theorem C36_written : forall L p ord rules ms t, RegexSpec L -> CidrSpec L -> NumberSpec L -> jp_prepare L "$.*" <> None ->
  (forall rest, jp_prepare L ("$RELATIVE" ++ rest) = None) -> fair ord -> (forall m, In m ms -> ascii_message m) ->
  (forall m r, In m ms -> In r rules -> rule_covered L p r m /\ exists ord' t' s t'', fair ord' /\ set_predefined L ord' p (load_rule L r) t' = (Ok tt, s, t'')) ->
  exists mc rc, coverage L ord p (map (load_rule L) rules) ms t = Some (mc, rc) /\
  (forall id, (exists r, In r rules /\ ru_id r = id) <-> exists l, assoc id rc = Some l) /\
  (forall id l, assoc id rc = Some l -> forall mid, In mid l <-> exists m, In m ms /\ m_id m = mid /\ decides L p rules (fun r => ru_id r = id) m) /\
  (forall id c, assoc id mc = Some c -> exists m, In m ms /\ m_id m = id /\
     (cov_covered c = true <-> decides L p rules (fun _ => True) m) /\ (forall rid, In rid (cov_ids c) <-> decides L p rules (fun r => ru_id r = rid) m) /\
     (forall r d, In r rules -> verdict L p r m d -> d <= cov_decision c) /\ (cov_decision c = 0 \/ exists r, In r rules /\ verdict L p r m (cov_decision c))) /\
  (forall m, In m ms -> exists c, assoc (m_id m) mc = Some c).
Proof.
  intros L p ord rules ms t H1 H2 H3 H4 H5 HF HA HG. apply coverage_written; auto.
  intros m r HM HR. destruct (HG m r HM HR) as [HC (ord' & t' & s & t'' & HF' & HS)]. eapply set_prepares; eauto.
Qed.
Print Assumptions C36_written.

(** the rule of C54 on a parsed document and on raw bytes *)
Example C36_written_case :
  (forall m r, In m [c54_msg true "5"; c54_msg false "3"] -> In r [c54_rule] -> rule_covered RefLib c54_predef r m) /\
  (forall m, In m [c54_msg true "5"; c54_msg false "3"] -> ascii_message m) /\
  coverage RefLib in_order c54_predef (map (load_rule RefLib) [c54_rule]) [c54_msg true "5"; c54_msg false "3"] 0 = Some ([("id1", mkCov false 0 [] [])], [("r", ["id1"])]).
Proof.
  split; [|split].
  - intros m r HM [<-|[]]. destruct HM as [<-|[<-|[]]]; apply c54_covered; simpl; auto.
  - intros m [<-|[<-|[]]]; apply ascii_messageb_ok; vm_compute; reflexivity.
  - vm_compute. reflexivity.
Qed.
