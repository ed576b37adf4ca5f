(** C78: names, operations, resources and lists that are UTF-8 texts. *)
From Coq Require Import List String Ascii Bool Arith ZArith.
From Verif Require Import Base GoStr GoFloat Types Json StrUtils Validate Prepare Eval Lifecycle Check Spec_Match Spec_Regex Spec_Glob
  Spec_Tree Spec_Leaf Tree_laws Number_proofs Ref_Regex RefLib Samples RefLib_facts RefLib_numbers Spec_Utf8 Utf8_proofs Utf8_names Utf8_lib
  Spec_Decision Spec_Validate Spec_Load Spec_Copy Spec_Grammar Spec_Meaning Glob_proofs Spec_Utf8Meaning Utf8_meaning.
Import ListNotations.
Open Scope string_scope.

Theorem C78_sender_names : forall L, Utf8RegexSpec L -> forall p r r' m,
  ru_converted r = false -> prepare_rule L p r = Ok r' ->
  In (ru_sender_type r) ["*"; "workload"] -> pattern8 (ru_sender_name r') -> utf8 (m_source_service m) ->
  (sender_matches L r' m <-> name_accepts8 (ru_sender_name r') (m_source_service m)).
Proof. exact sender_names8. Qed.
Print Assumptions C78_sender_names.

Theorem C78_receiver_names : forall L, Utf8RegexSpec L -> forall p r r' m,
  ru_converted r = false -> prepare_rule L p r = Ok r' ->
  In (ru_receiver_type r) ["*"; "workload"] -> pattern8 (ru_receiver_name r') -> utf8 (m_dest_service m) ->
  (receiver_matches L r' m <-> name_accepts8 (ru_receiver_name r') (m_dest_service m)).
Proof. exact receiver_names8. Qed.
Print Assumptions C78_receiver_names.

Theorem C78_receiver_hosts : forall L, Utf8RegexSpec L -> forall p r r' m,
  ru_converted r = false -> prepare_rule L p r = Ok r' ->
  ru_receiver_type r = "hostname" -> pattern8 (ru_receiver_name r') -> utf8 (m_host m) ->
  (receiver_matches L r' m <-> name_accepts8 (ru_receiver_name r') (m_host m)).
Proof. exact receiver_hosts8. Qed.
Print Assumptions C78_receiver_hosts.

(** such names always prepare *)
Theorem C78_names_prepare : forall L, Utf8RegexSpec L -> forall ty name,
  ty <> "subnet" -> pattern8 name -> exists xs, expand L name ty = Ok xs.
Proof. exact names_prepare8. Qed.
Print Assumptions C78_names_prepare.

Theorem C78_operation : forall L, Utf8RegexSpec L -> forall p r r' m,
  ru_converted r = false -> prepare_rule L p r = Ok r' ->
  pattern8 (ru_operation r) -> utf8 (m_method m) ->
  (operation_matches L r' m <-> operation_accepts8 (ru_operation r) (m_method m)).
Proof. exact operation_texts8. Qed.
Print Assumptions C78_operation.

(** protocols are compared ignoring case, which the model does for ASCII texts only *)
Theorem C78_resource : forall L, Utf8RegexSpec L -> forall p r r' m,
  ru_converted r = false -> prepare_rule L p r = Ok r' ->
  pattern8 (ru_resource_name r) -> ascii_text (ru_protocol r) \/ ascii_text (m_protocol m) ->
  utf8 (m_path m) -> utf8 (m_dest_port m) ->
  (resource_matches L r' m <->
     (ru_protocol r = "tcp" /\ list_accepts8 (ru_resource_name r) (m_dest_port m))
     \/ ru_protocol r = "*"
     \/ (ru_protocol r <> "tcp" /\ ru_protocol r <> "*" /\
         same_folded (m_protocol m) (ru_protocol r) /\
         (ru_resource_type r = "*" \/ m_context_type m = ru_resource_type r) /\
         list_accepts8 (ru_resource_name r) (m_path m))).
Proof. exact resource_texts8. Qed.
Print Assumptions C78_resource.

Theorem C78_membership : forall L, Utf8RegexSpec L -> forall p att method value v ret c k m t l b, NumberSpec L ->
  method_is method k -> prepares L p att method value ret c -> replaced p method value v ->
  l <> [] -> Forall plain_item8 l -> v = list_value l \/ v = String.concat "," l ->
  shows L att m (Present t) -> utf8 t -> may_return L (NCond c) m b ->
  (k = KIn -> (b = true <-> In t l)) /\ (k = KNin -> (b = true <-> ~ In t l)).
Proof. exact list_membership8. Qed.
Print Assumptions C78_membership.

(** Check on freshly loaded rules: as C54_check *)
Theorem C78_check : forall L p ord rules m t, Utf8RegexSpec L -> CidrSpec L -> NumberSpec L -> jp_prepare L "$.*" <> None ->
  (forall rest, jp_prepare L ("$RELATIVE" ++ rest) = None) -> fair ord -> utf8_message m ->
  (forall r, In r rules -> rule_covered8 L p r m /\ exists ord' t' s t'', fair ord' /\ set_predefined L ord' p (load_rule L r) t' = (Ok tt, s, t'')) ->
  exists o e, check L ord p (map (load_rule L) rules) (mkEst m t) = (Some o, e) /\
    Forall2 (fun r d => verdict8 L p r m d) rules (out_results o) /\ decision_is_strictest (out_results o) (out_decision o).
Proof.
  intros L p ord rules m t H1 H2 H3 H4 H5 HF HA HG. apply check_verdict8; auto.
  intros r HR. destruct (HG r HR) as [HC (ord' & t' & s & t'' & HF' & HS)]. eapply set_prepares8; eauto.
Qed.
Print Assumptions C78_check.

Theorem C78_verdict : forall L p r m d d', verdict8 L p r m d -> verdict8 L p r m d' -> d = d'.
Proof. exact verdict_unique8. Qed.
Print Assumptions C78_verdict.

(** for ASCII texts this is what C07, C09, C10 and C19 say *)
Theorem C78_ascii : forall L, Utf8RegexSpec L -> RegexSpec L.
Proof. exact utf8_regex_ascii. Qed.
Print Assumptions C78_ascii.

Theorem C78_ascii_texts : forall p s, ascii_text s -> (glob8 p s <-> glob p s).
Proof. exact glob8_ascii. Qed.
Print Assumptions C78_ascii_texts.

(** ** A case: "caf?" and "caf" followed by U+00E9; a byte-wise reading of [?] would refuse it *)
Fixpoint utf8b (n : nat) (s : string) : bool :=
  match n with
  | O => String.eqb s ""
  | S n' => if String.eqb s "" then true else existsb (fun ranges => let k := List.length ranges in
      if fits ranges (substring 0 k s) && String.eqb (substring 0 k s ++ substring k (String.length s - k) s) s then utf8b n' (substring k (String.length s - k) s) else false)
      ([(0, 127)] :: several_bytes)
  end.
Lemma utf8b_ok n : forall s, utf8b n s = true -> utf8 s.
Proof.
  induction n as [|n IH]; intros s H; cbn [utf8b] in H.
  - apply String.eqb_eq in H. subst. constructor.
  - destruct (String.eqb s "") eqn:E0; [apply String.eqb_eq in E0; subst; constructor|]. clear E0. apply existsb_exists in H. destruct H as (ranges & HI & H). cbv zeta in H.
    match type of H with (if ?b then _ else _) = true => destruct b eqn:E end; [|discriminate]. apply andb_prop in E. destruct E as [HF H1].
    apply String.eqb_eq in H1. rewrite <- H1. constructor; [exists ranges; auto|]. apply IH. exact H.
Qed.
Definition okb (s : string) : bool :=
  forallb (fun c => negb (existsb (Ascii.eqb c) ["\"; "+"; "("; ")"; "|"; "["; "]"; "{"; "}"]%char)) (list_ascii_of_string s).
Lemma pattern8_ok n s : utf8b n s = true -> okb s = true -> pattern8 s.
Proof.
  intros HU HP. split; [eapply utf8b_ok; eauto|]. clear HU. unfold okb in HP. induction s as [|c s IH]; cbn [list_ascii_of_string forallb all_chars] in *; auto.
  apply andb_prop in HP. destruct HP as [H1 H2]. split; auto. intro HI. apply negb_true_iff in H1. rewrite <- not_true_iff_false in H1. apply H1.
  apply existsb_exists. exists c. split; auto. apply Ascii.eqb_refl.
Qed.
Definition e_acute : string := bytes [195; 169].
Definition han : string := bytes [228; 184; 173].
Definition c78_rule (L : Lib) : rule L :=
  mkRule "r" ("x" ++ han ++ "?, caf?") "workload" [] ("*." ++ han) "hostname" [] "HTTP" "path" ("/" ++ e_acute ++ "/?") None ("G?," ++ bytes [194; 160] ++ han ++ bytes [32; 227; 128; 128]) None "allow" [] "" None false.
Definition c78_message (service host path method : string) : message :=
  mkMessage "10.1.2.3" "" "" "10.9.9.9" "80" "" "" path host method 100 "" "curl/7" "HTTP" "id1"
    service "back.end" "" "" "path" "" None None None None None "" f_zero f_zero f_zero [10; 1; 2; 3]%Z [10; 9; 9; 9]%Z [] [].
Definition c78_tests (L : Lib) (m : message) : option (option bool * option bool * option bool * option bool) :=
  match prepare_rule L empty_predef (c78_rule L) with
  | Ok r' => Some (test_sender L r' m, test_receiver L r' m, match_regex L (ru_operation_regex r') (m_method m), test_resource L r' m)
  | _ => None
  end.
Definition c78_good : message := c78_message ("caf" ++ e_acute) ("www." ++ han) ("/" ++ e_acute ++ "/" ++ han) ("G" ++ e_acute).
(** [?] does not stand for two characters, nor for one byte of a character *)
Definition c78_bad : message := c78_message ("caf" ++ e_acute ++ "s") ("www." ++ e_acute) ("/" ++ e_acute ++ "/" ++ han ++ han) ("G" ++ han ++ "G").
Definition c78_member (t : string) : option (option bool) :=
  match re_compile Utf8Lib (list_to_alternatives (list_value ["caf" ++ e_acute; han])) with Some re => Some (Some (re_match Utf8Lib re t)) | None => None end.

Example C78_case : Utf8RegexSpec Utf8Lib /\
  pattern8 (ru_sender_name (c78_rule Utf8Lib)) /\ pattern8 (ru_receiver_name (c78_rule Utf8Lib)) /\ pattern8 (ru_operation (c78_rule Utf8Lib)) /\ pattern8 (ru_resource_name (c78_rule Utf8Lib)) /\
  utf8 (m_source_service c78_good) /\ utf8 (m_source_service c78_bad) /\ utf8 (m_path c78_good) /\ utf8 (m_method c78_good) /\ utf8 (m_host c78_good) /\
  c78_tests Utf8Lib c78_good = Some (Some true, Some true, Some true, Some true) /\
  c78_tests Utf8Lib c78_bad = Some (Some false, Some false, Some false, Some false) /\
  c78_tests RefLib c78_good = Some (Some false, Some true, Some false, Some false) /\
  map c78_member ["caf" ++ e_acute; han; "caf"; e_acute] = [Some (Some true); Some (Some true); Some (Some false); Some (Some false)] /\
  ~ utf8 (bytes [195]) /\ ~ ascii_text e_acute.
Proof.
  split; [exact Utf8Lib_regex|]. do 4 (split; [apply (pattern8_ok 20); vm_compute; reflexivity|]). do 5 (split; [apply (utf8b_ok 20); vm_compute; reflexivity|]).
  do 4 (split; [vm_compute; reflexivity|]). split.
  - intro H. inversion H as [|ch s HC HS E]. destruct HC as (ranges & HI & HF).
    assert (HB : forallb (fun r => negb (fits r (bytes [195])) && negb (fits r "")) ([(0, 127)] :: several_bytes) = true) by (vm_compute; reflexivity).
    rewrite forallb_forall in HB. specialize (HB ranges HI). apply andb_prop in HB. destruct HB as [B1 B2].
    change (bytes [195]) with (String (ascii_of_nat 195) "") in *. destruct ch as [|c ch]; [rewrite HF in B2; discriminate|]. cbn [append] in E. injection E as -> E.
    destruct ch; [rewrite HF in B1; discriminate|discriminate].
  - intros [H _]. revert H. apply Nat.nlt_ge. apply Nat.leb_le. vm_compute. reflexivity.
Qed.

(** white space is trimmed, also the characters outside ASCII: a no-break space before and an ideographic space after an item *)
Example C78_spaces_case :
  trimmed (bytes [194; 160] ++ han ++ bytes [32; 227; 128; 128]) han /\ trim_space (bytes [194; 160] ++ han ++ bytes [32; 227; 128; 128]) = han /\
  list_accepts8 (ru_operation (c78_rule Utf8Lib)) han /\
  c78_tests Utf8Lib (c78_message ("caf" ++ e_acute) ("www." ++ han) ("/" ++ e_acute ++ "/" ++ han) han) = Some (Some true, Some true, Some true, Some true).
Proof.
  assert (HT : trim_space (bytes [194; 160] ++ han ++ bytes [32; 227; 128; 128]) = han) by (vm_compute; reflexivity).
  split; [apply trimmed_iff; symmetry; exact HT|]. split; [exact HT|]. split; [|vm_compute; reflexivity].
  apply list_accepts8_iff. exists (bytes [194; 160] ++ han ++ bytes [32; 227; 128; 128]). split; [vm_compute; auto|]. rewrite HT.
  repeat (apply g8_lit; [discriminate|discriminate|]). apply g8_nil.
Qed.

(** the hypotheses of C78_check, and what Check returns *)
Definition c78_check (m : message) : option (list nat * nat) :=
  option_map (fun o => (out_results o, out_decision o)) (fst (check Utf8Lib in_order empty_predef [load_rule Utf8Lib (c78_rule Utf8Lib)] (mkEst m 0))).
Lemma c78_covered m : m_protocol m = "HTTP" -> rule_covered8 Utf8Lib empty_predef (c78_rule Utf8Lib) m.
Proof.
  intro EP. constructor.
  - repeat split.
  - right. intros name HN. inversion HN; subst; try discriminate. apply (pattern8_ok 20); vm_compute; reflexivity.
  - right. intros name HN. inversion HN; subst; try discriminate. apply (pattern8_ok 20); vm_compute; reflexivity.
  - apply (pattern8_ok 20); vm_compute; reflexivity.
  - split; [apply (pattern8_ok 20); vm_compute; reflexivity|]. rewrite EP.
    left. repeat split; apply Nat.ltb_lt; vm_compute; reflexivity.
  - intros n HN. discriminate HN.
Qed.
Example C78_check_case : CidrSpec Utf8Lib /\ NumberSpec Utf8Lib /\ jp_prepare Utf8Lib "$.*" <> None /\ (forall rest, jp_prepare Utf8Lib ("$RELATIVE" ++ rest) = None) /\
  (forall m, In m [c78_good; c78_bad] -> utf8_message m /\ rule_covered8 Utf8Lib empty_predef (c78_rule Utf8Lib) m) /\
  (exists s t, set_predefined Utf8Lib in_order empty_predef (load_rule Utf8Lib (c78_rule Utf8Lib)) 0 = (Ok tt, s, t)) /\
  map c78_check [c78_good; c78_bad] = [Some ([1], 1); Some ([0], 0)].
Proof.
  split; [exact RefLib_cidr|]. split; [exact RefLib_number|]. split; [discriminate|]. split; [intro rest; reflexivity|].
  split; [|split; [|vm_compute; reflexivity]].
  - intros m HM. split.
    + destruct HM as [<-|[<-|[]]]; repeat (constructor; [apply (utf8b_ok 20); vm_compute; reflexivity|]); constructor.
    + apply c78_covered. destruct HM as [<-|[<-|[]]]; reflexivity.
  - assert (H : match set_predefined Utf8Lib in_order empty_predef (load_rule Utf8Lib (c78_rule Utf8Lib)) 0 with (Ok tt, _, _) => true | _ => false end = true) by (vm_compute; reflexivity).
    destruct (set_predefined Utf8Lib in_order empty_predef (load_rule Utf8Lib (c78_rule Utf8Lib)) 0) as [[[[]| |] s] t]; try discriminate H. exists s, t. reflexivity.
Qed.
