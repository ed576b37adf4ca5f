(** C59: a parsed document and its raw bytes give the same decisions. *)
From Coq Require Import List String Ascii Bool Arith ZArith.
From Verif Require Import Base GoStr GoFloat Types Json StrUtils GoStr_facts Validate Prepare Parse Marshal Lifecycle Eval Check
  Spec_Tree Tree_truth Spec_Decision Spec_Regex Spec_Glob Spec_Match Spec_Leaf Number_proofs Leaf_samples Spec_Validate Prepare_proofs Spec_Load Load_proofs Decode_proofs
  Spec_Copy Spec_Grammar Grammar_proofs Grammar_tree Spec_Json Spec_MongoMatch Spec_Meaning Meaning_proofs Meaning_rules Spec_Accept Accept_proofs Accept_rules
  Spec_Backends Backends_proofs Backends_rules RefLib RefLib_facts RefLib_numbers RefLib_paths Text_lib Samples Props_Match Props_Copy Props_Strings Props_Panic Props_Raw Props_Meaning Props_Accept.
Import ListNotations.
Open Scope string_scope.

(** [laid_out]: a JSON text of the document; [twins]: two messages that differ only in that one has the document parsed and
    the other its text; [indifferent]: the trees to which the difference must not matter; [TextSpec], [PathSpec],
    [PathsAccepted], [EntriesSpec]: what is needed of the JSON libraries (Spec_Backends, Spec_MongoMatch). *)
Theorem C59_text : forall L d t, laid_out L d t -> json_parse L t = Some d.
Proof. exact out_parses. Qed.
Print Assumptions C59_text.

(** what a tree says of the two messages, and what it evaluates to *)
Theorem C59_meaning : forall L p n m m', PathSpec L -> TextSpec L -> PathsAccepted L -> EntriesSpec L -> indifferent L p n m -> twins L m m' ->
  covered L p n m /\ covered L p n m' /\ (means L p n m <-> means L p n m').
Proof. intros L p n m m' H1 H2 H3 H4. exact (twins_agree L p H1 H2 H3 H4 n m m'). Qed.
Print Assumptions C59_meaning.

Theorem C59_tree : forall L p n0 n ord m m' t t', PathSpec L -> TextSpec L -> PathsAccepted L -> EntriesSpec L -> NumberSpec L ->
  (forall rest, jp_prepare L ("$RELATIVE" ++ rest) = None) ->
  loaded_tree L n0 -> prepare_node L p n0 = Ok n -> fair ord -> indifferent L p n0 m -> twins L m m' ->
  exists b x e x' e', eval L ord n (mkEst m t) = (Some (b, x), e) /\ eval L ord n (mkEst m' t') = (Some (b, x'), e').
Proof. intros L p n0 n ord m m' t t' H1 H2 H3 H4. exact (tree_twins L p H1 H2 H3 H4 n0 n ord m m' t t'). Qed.
Print Assumptions C59_tree.

(** a rule has the same decision on both *)
Theorem C59_rule : forall L p r m m' d, PathSpec L -> TextSpec L -> PathsAccepted L -> EntriesSpec L -> indifferent_rule L p r m -> twins L m m' ->
  (verdict L p r m d <-> verdict L p r m' d).
Proof. intros L p r m m' d H1 H2 H3 H4. exact (verdict_twins L p H1 H2 H3 H4 r m m' d). Qed.
Print Assumptions C59_rule.

(** Check on rules as written *)
Theorem C59_check : forall L p ord rules m m' t t', PathSpec L -> TextSpec L -> PathsAccepted L -> EntriesSpec L -> RegexSpec L -> CidrSpec L -> NumberSpec L ->
  (forall rest, jp_prepare L ("$RELATIVE" ++ rest) = None) ->
  fair ord -> ascii_message m -> twins L m m' -> (forall r, In r rules -> ordinary L p r /\ preparable_rule L p r /\ indifferent_rule L p r m) ->
  exists o e o' e', check L ord p (map (load_rule L) rules) (mkEst m t) = (Some o, e) /\ check L ord p (map (load_rule L) rules) (mkEst m' t') = (Some o', e') /\
    same_outcome o o'.
Proof. intros L p ord rules m m' t t' H1 H2 H3 H4. exact (check_twins L p H1 H2 H3 H4 ord rules m m' t t'). Qed.
Print Assumptions C59_check.

(** and on rules loaded with a dictionary *)
Theorem C59_loaded_check : forall L p ord ord' g rules m m' t t' u, PathSpec L -> TextSpec L -> PathsAccepted L -> EntriesSpec L -> RegexSpec L -> CidrSpec L -> NumberSpec L ->
  (forall rest, jp_prepare L ("$RELATIVE" ++ rest) = None) ->
  fair ord -> fair ord' -> ascii_message m -> twins L m m' ->
  Forall (ordinary L p) rules -> Forall (preparable_rule L p) rules -> Forall (fun r => indifferent_rule L p r m) rules ->
  exists ss u' o e o' e', load_with_predefined L ord' p rules u = (Ok ss, u') /\
    check L ord g ss (mkEst m t) = (Some o, e) /\ check L ord g ss (mkEst m' t') = (Some o', e') /\ same_outcome o o'.
Proof. intros L p ord ord' g rules m m' t t' u H1 H2 H3 H4. exact (loaded_check_twins L p H1 H2 H3 H4 ord ord' g rules m m' t t' u). Qed.
Print Assumptions C59_loaded_check.

(** the needs of the libraries can be met *)
Theorem C59_library : PathSpec TextLib /\ TextSpec TextLib /\ PathsAccepted TextLib /\ EntriesSpec TextLib /\ RegexSpec TextLib /\ CidrSpec TextLib /\ NumberSpec TextLib /\
  (forall rest, jp_prepare TextLib ("$RELATIVE" ++ rest) = None).
Proof.
  split; [exact TextLib_path|]. split; [exact TextLib_text|]. split; [exact TextLib_accepts|]. split; [exact RefLib_entries|]. split; [exact RefLib_regex|]. split; [exact RefLib_cidr|].
  split; [exact RefLib_number|]. intro rest. reflexivity.
Qed.
Print Assumptions C59_library.

(** ** A rule with an ANY over the elements of an array, a condition on a path and one on a label *)
Definition text_tree (s : string) : option (node TextLib) :=
  match json_parse TextLib (quotes s) with
  | Some v => match parse_conditions_tree TextLib in_order v 0 with (Ok n, _) => Some n | _ => None end
  | None => None
  end.
Definition c59_predef : predef := mkPredef [("app", "ba.*"); ("who", "Ann <x>"); ("back", "back.*,cache")] [] [].
Definition c59_tree : option (node TextLib) := text_tree
  "{'AND':[{'ANY':{'parentJsonpathAttribute':'jsonpath:$.x[:]','condition':{'attribute':'jsonpath:$RELATIVE.a','method':'GT','value':'4'}}},{'attribute':'jsonpath:$.user.name','method':'EQ','value':'#who'},{'attribute':'senderLabel[app]','method':'EQ','value':'#app'}]}".
Definition c59_rule : rule TextLib :=
  mkRule "r" "front*, ?x" "workload" [] "#back" "workload" [] "*" "*" "*" None "read" c59_tree "alert" [] "" None false.
Definition num (s : string) : f64 := match ref_parse_float s with Some f => f | None => f_zero end.
Definition c59_doc (y : string) : iface :=
  GMapS [("user", GMapS [("name", GStr "Ann <x>")]); ("x", GArr [GMapS [("a", GFloat (num "1"))]; GMapS [("a", GFloat (num y)); ("b", GNil)]])].
Definition c59_bytes (y : string) : string := quotes ("{ 'user' : {'name':'Ann <x>'}, 'x':[{'a':1}, {'a':" ++ y ++ ", 'b':null}] }").
Definition c59_base : message :=
  let m := msg0 in
  mkMessage (m_source_ip m) (m_source_namespace m) (m_source_cluster m) (m_dest_ip m) (m_dest_port m)
   (m_dest_namespace m) (m_dest_cluster m) (m_path m) (m_host m) (m_method m) (m_size m) (m_time m)
   (m_useragent m) (m_protocol m) (m_id m) (m_source_service m) (m_dest_service m)
   (m_source_labels_json m) (m_dest_labels_json m) (m_context_type m) (m_enc_type m) (m_enc_version m)
   (m_json m) (m_json_rel m) (m_raw m) (m_raw_rel m) (m_domain m) (m_t_sec m) (m_t_min m) (m_t_hours m)
   (m_source_netip m) (m_dest_netip m) [("app", "batch")] [].
Definition c59_msg (raw : bool) (y : string) : message :=
  if raw then set_json c59_base (Some (c59_bytes y)) else set_raw c59_base (Some (c59_doc y)).

Lemma num_text s : In s ["1"; "5"; "3"] -> plain TextLib spaces (GFloat (num s)) s.
Proof.
  intro H. assert (E : ref_fmt_float (num s) = s) by (destruct H as [<-|[<-|[<-|[]]]]; vm_compute; reflexivity).
  rewrite <- E at 2. apply (pl_number TextLib); change (fmt_float TextLib) with ref_fmt_float; change (parse_float TextLib) with ref_parse_float; rewrite E.
  - exists "", s, "", "". split; [left; reflexivity|]. split; [|split; [left; reflexivity|split; [left; reflexivity|rewrite append_nil_r; reflexivity]]].
    split; [split; [destruct H as [<-|[<-|[<-|[]]]]; discriminate|destruct H as [<-|[<-|[<-|[]]]]; split; [vm_compute; repeat constructor|exact I|vm_compute; repeat constructor|exact I|vm_compute; repeat constructor|exact I]]|].
    right. intros [r E1]. destruct H as [<-|[<-|[<-|[]]]]; discriminate E1.
  - destruct H as [<-|[<-|[<-|[]]]]; vm_compute; reflexivity.
Qed.

Lemma plainb s : forallb (fun c => (32 <=? nat_of_ascii c)%nat && (nat_of_ascii c <? 127)%nat && negb (existsb (Ascii.eqb c) [dq; bslash; "{"; "}"]%char)) (list_ascii_of_string s) = true -> plain_string s.
Proof.
  induction s as [|c s IH]; cbn [list_ascii_of_string forallb]; [intros _; exact I|]. rewrite !andb_true_iff, negb_true_iff, Nat.leb_le, Nat.ltb_lt. intros [[H1 H2] H3]. split; [|exact (IH H3)].
  split; [exact H1|]. cbn [existsb] in H2. rewrite !orb_false_iff, !Ascii.eqb_neq in H2. destruct H2 as (A & B & C & D & _). split; [exact A|]. split; [exact B|]. intros [E|E]; [apply C|apply D]; exact E.
Qed.
Lemma c59_laid y : In y ["5"; "3"] -> laid_out TextLib (c59_doc y) (c59_bytes y).
Proof.
  intro HY. assert (S0 : spaces "") by exact I. assert (S1 : spaces " ") by (split; [vm_compute; tauto|exact I]).
  assert (P : forall k, In k ["user"; "name"; "Ann <x>"; "x"; "a"; "b"] -> plain_string k) by (intros k HK; apply plainb; repeat (destruct HK as [<-|HK]; [vm_compute; reflexivity|]); destruct HK).
  assert (N1 : plain TextLib spaces (GFloat (num "1")) "1") by (apply num_text; left; reflexivity).
  assert (NY : plain TextLib spaces (GFloat (num y)) y) by (apply num_text; right; exact HY).
  assert (D : forall k1 k2 : string, k1 <> k2 -> NoDup [k1; k2]) by (intros k1 k2 H; constructor; [intros [E|[]]; auto|constructor; [intros []|constructor]]).
  assert (D1 : forall k1 : string, NoDup [k1]) by (intros k1; constructor; [intros []|constructor]).
  pose proof (pl_object TextLib spaces _ _ (pm_one TextLib spaces "name" _ _ "" "" "" "" S0 S0 S0 S0 (P "name" ltac:(simpl; tauto)) (pl_string TextLib spaces "Ann <x>" (P "Ann <x>" ltac:(simpl; tauto)))) (D1 _)) as U.
  pose proof (pl_object TextLib spaces _ _ (pm_one TextLib spaces "a" _ _ "" "" "" "" S0 S0 S0 S0 (P "a" ltac:(simpl; tauto)) N1) (D1 _)) as E1.
  pose proof (pl_object TextLib spaces _ _ (pm_cons TextLib spaces "a" _ _ "" "" "" "" _ _ S0 S0 S0 S0 (P "a" ltac:(simpl; tauto)) NY
     (pm_one TextLib spaces "b" _ _ " " "" "" "" S1 S0 S0 S0 (P "b" ltac:(simpl; tauto)) (pl_null TextLib spaces))) (D "a" "b" ltac:(discriminate))) as E2.
  pose proof (pl_array TextLib spaces _ _ (pe_cons TextLib spaces _ _ "" "" _ _ S0 S0 E1 (pe_one TextLib spaces _ _ " " "" S1 S0 E2))) as X.
  pose proof (pl_object TextLib spaces _ _ (pm_cons TextLib spaces "user" _ _ " " " " " " "" _ _ S1 S1 S1 S0 (P "user" ltac:(simpl; tauto)) U
     (pm_one TextLib spaces "x" _ _ " " "" "" " " S1 S0 S0 S1 (P "x" ltac:(simpl; tauto)) X)) (D "user" "x" ltac:(discriminate))) as H.
  destruct HY as [<-|[<-|[]]]; exact H.
Qed.
Lemma c59_twins y : In y ["5"; "3"] -> twins TextLib (c59_msg false y) (c59_msg true y).
Proof.
  intro HY. split; [reflexivity|]. split; [reflexivity|]. split; [|left; split; reflexivity]. exists (c59_doc y), (c59_bytes y). split; [reflexivity|]. split; [reflexivity|]. apply c59_laid. exact HY.
Qed.

Definition c59_shape (t : option (node TextLib)) : option (list string) :=
  match t with
  | Some (NAnd [NQuant QAny a (NCond c); NCond b; NCond d]) =>
    match r_orig (c_ret c), r_orig (c_ret b), r_orig (c_ret d), r_orig (a_ret a) with
    | None, None, None, None => Some [a_parent a; a_orig a; c_attr c; c_method c; c_value c; c_attr b; c_method b; c_value b; c_attr d; c_method d; c_value d]
    | _, _, _, _ => None
    end
  | _ => None
  end.
Lemma c59_shape_ok : exists a c b d, c59_tree = Some (NAnd [NQuant QAny a (NCond c); NCond b; NCond d]) /\
  r_orig (c_ret c) = None /\ r_orig (c_ret b) = None /\ r_orig (c_ret d) = None /\ r_orig (a_ret a) = None /\
  [a_parent a; a_orig a; c_attr c; c_method c; c_value c; c_attr b; c_method b; c_value b; c_attr d; c_method d; c_value d] =
  ["$.x[:]"; "jsonpath:$.x[:]"; "jsonpath:$RELATIVE.a"; "GT"; "4"; "jsonpath:$.user.name"; "EQ"; "#who"; "senderLabel[app]"; "EQ"; "#app"].
Proof.
  assert (HS : c59_shape c59_tree = Some ["$.x[:]"; "jsonpath:$.x[:]"; "jsonpath:$RELATIVE.a"; "GT"; "4"; "jsonpath:$.user.name"; "EQ"; "#who"; "senderLabel[app]"; "EQ"; "#app"]) by (vm_compute; reflexivity).
  destruct c59_tree as [n|]; [|discriminate HS]. destruct n as [ns| | | | | | |]; try discriminate HS.
  destruct ns as [|n1 ns]; [discriminate HS|]. destruct n1 as [| | |q a n1| | | |]; try discriminate HS. destruct q; [|discriminate HS].
  destruct n1 as [| | | | | |c|]; try discriminate HS. destruct ns as [|n2 ns]; [discriminate HS|].
  destruct n2 as [| | | | | |b|]; try discriminate HS. destruct ns as [|n3 ns]; [discriminate HS|].
  destruct n3 as [| | | | | |d|]; try discriminate HS. destruct ns; [|discriminate HS]. cbn [c59_shape] in HS.
  destruct (r_orig (c_ret c)) eqn:R1; [discriminate HS|]. destruct (r_orig (c_ret b)) eqn:R2; [discriminate HS|]. destruct (r_orig (c_ret d)) eqn:R3; [discriminate HS|].
  destruct (r_orig (a_ret a)) eqn:R4; [discriminate HS|]. exists a, c, b, d. repeat (split; [first [reflexivity|assumption]|]). injection HS. congruence.
Qed.
Lemma c59_names k : In k ["x"; "a"; "user"; "name"] -> field_name k.
Proof. intro H. destruct H as [<-|[<-|[<-|[<-|[]]]]]; (split; [discriminate|]); repeat split; right; right; left; split; apply Nat.leb_le; reflexivity. Qed.
Lemma c59_indifferent n y : c59_tree = Some n -> In y ["5"; "3"] -> indifferent TextLib c59_predef n (c59_msg false y).
Proof.
  intros HT HY. destruct c59_shape_ok as (a & c & b & d & E & R1 & R2 & R3 & R4 & HE). rewrite HT in E. injection E as ->.
  injection HE as A1 _ C1 C2 C3 B1 B2 B3 D1 D2 D3.
  assert (RF : forall x m, r_orig (c_ret x) = None -> returns_found TextLib x m) by (intros x m HX rets name path H; rewrite HX in H; discriminate H).
  apply id_and. constructor; [|constructor; [|constructor; [|constructor]]].
  - apply (id_array TextLib c59_predef QAny a (NCond c) (c59_msg false y) false ["x"] "[:]" (c59_doc y)
      [GMapS [("a", GFloat (num "1"))]; GMapS [("a", GFloat (num y)); ("b", GNil)]]).
    + exact A1.
    + discriminate.
    + constructor; [apply c59_names; left; reflexivity|constructor].
    + right. left. reflexivity.
    + reflexivity.
    + eapply ap_member; [reflexivity|]. apply ap_here.
    + constructor; [|constructor; [|constructor]]; eexists; reflexivity.
    + assert (G : forall f rest, indifferent TextLib c59_predef (NCond c) (set_raw_rel (c59_msg false y) (Some (GMapS (("a", GFloat f) :: rest))))).
      { intros f rest. apply (id_path TextLib c59_predef c _ true ["a"] KGt "4" (GMapS (("a", GFloat f) :: rest)) (Some (GFloat f))).
        - exact C1.
        - discriminate.
        - constructor; [apply c59_names; right; left; reflexivity|constructor].
        - rewrite C2. unfold method_is. simpl. tauto.
        - rewrite C3. constructor. intros [r E]. discriminate E.
        - split; intros [r E]; discriminate E.
        - reflexivity.
        - eapply ap_member; [reflexivity|]. apply ap_here.
        - apply ag_number. intros [H|[H|[H|[]]]]; discriminate H.
        - apply RF. exact R1. }
      constructor; [apply G|constructor; [apply G|constructor]].
  - apply (id_path TextLib c59_predef b _ false ["user"; "name"] KEq "Ann <x>" (c59_doc y) (Some (GStr "Ann <x>"))).
    + exact B1.
    + discriminate.
    + constructor; [apply c59_names; simpl; tauto|constructor; [apply c59_names; simpl; tauto|constructor]].
    + rewrite B2. unfold method_is. simpl. tauto.
    + rewrite B3. apply rp_string with "who"; reflexivity.
    + split; intros [r E]; discriminate E.
    + reflexivity.
    + eapply ap_member; [reflexivity|]. eapply ap_member; [reflexivity|]. apply ap_here.
    + apply ag_string.
      * split; [discriminate|]. split; [discriminate|]. repeat split; try (intros u v E; do 7 (destruct u as [|? u]; [discriminate E|injection E as _ E]); destruct u; discriminate E).
        -- intros [r E]. discriminate E.
        -- intros u E. do 7 (destruct u as [|? u]; [discriminate E|injection E as _ E]). destruct u; discriminate E.
      * discriminate.
      * intros [r E]. discriminate E.
      * intros u E. do 7 (destruct u as [|? u]; [discriminate E|injection E as _ E]). destruct u; discriminate E.
      * intros _ _. apply not_number_iff. vm_compute. reflexivity.
    + apply RF. exact R2.
  - eapply id_field.
    + rewrite D1. intros [r E]. discriminate E.
    + rewrite D1, D2, D3. apply (cn_sender_label TextLib c59_predef _ _ _ _ "app" KEq "ba.*"); [reflexivity|repeat split; discriminate|unfold method_is; simpl; tauto| |intros [r E]; discriminate E].
      apply rp_string with "app"; reflexivity.
Qed.
Lemma c59_ordinary : ordinary TextLib c59_predef c59_rule.
Proof.
  destruct c59_shape_ok as (a & c & b & d & ET & R1 & R2 & R3 & R4 & HE). injection HE as A1 A2 C1 C2 C3 B1 B2 B3 D1 D2 D3.
  constructor.
  - repeat split.
  - intros n HN. change (c59_tree = Some n) in HN. split; [split|].
    + rewrite ET in HN. injection HN as <-. apply cp_and; [discriminate|].
      assert (G : forall x : cond TextLib, r_orig (c_ret x) = None -> printableb (c_attr x) = true -> printableb (c_value x) = true -> copyable TextLib (NCond x)).
      { intros x H1 H2 H3. apply cp_cond; [apply printableb_ok; exact H2|apply printableb_ok; exact H3|]. rewrite H1. exact I. }
      constructor; [|constructor; [|constructor; [|constructor]]].
      * apply cp_quant; [rewrite A2; apply unescapedb_ok; reflexivity|rewrite R4; exact I|]. apply G; [exact R1|rewrite C1; reflexivity|rewrite C3; reflexivity].
      * apply G; [exact R2|rewrite B1; reflexivity|rewrite B3; reflexivity].
      * apply G; [exact R3|rewrite D1; reflexivity|rewrite D3; reflexivity].
    + unfold c59_tree, text_tree in HN. destruct (json_parse TextLib _) as [v|] eqn:HJ; [|discriminate HN].
      destruct (parse_conditions_tree TextLib in_order v 0) as [[n'| |] t'] eqn:HL; try discriminate HN. injection HN as ->.
      exists v. pose proof (parsed_go_value TextLib _ _ HJ) as HG. split; [exact HG|]. exact (grammar_sound TextLib in_order v 0 n t' in_order_fair HG HL).
    + rewrite ET in HN. injection HN as <-. intros x HX. inversion HX as [|? y ? HI HY| | |]; subst.
      destruct HI as [<-|[<-|[<-|[]]]].
      * inversion HY as [| | | |? ? ? ? HY']; subst. inversion HY'; subst. rewrite C1. apply unmarkedb_ok. reflexivity.
      * inversion HY; subst. rewrite B1. apply unmarkedb_ok. reflexivity.
      * inversion HY; subst. rewrite D1. apply unmarkedb_ok. reflexivity.
  - constructor.
    + apply c58_names. intros x E. injection E as <-. apply pattern_okb. vm_compute. reflexivity.
    + apply c58_names. intros x E. change (Ok "back.*,cache" = Ok x) in E. injection E as <-. apply pattern_okb. vm_compute. reflexivity.
    + apply pattern_okb. vm_compute. reflexivity.
    + apply pattern_okb. vm_compute. reflexivity.
Qed.
Lemma c59_preparable : preparable_rule TextLib c59_predef c59_rule.
Proof.
  apply (proj1 (set_outcome TextLib c59_predef RefLib_regex c59_rule in_order 0 in_order_fair c59_ordinary)).
  assert (H : match set_predefined TextLib in_order c59_predef (load_rule TextLib c59_rule) 0 with (Ok tt, _, _) => true | _ => false end = true) by (vm_compute; reflexivity).
  destruct (set_predefined TextLib in_order c59_predef (load_rule TextLib c59_rule) 0) as [[[[]| |] s] t]; try discriminate H. exists s, t. reflexivity.
Qed.
Definition c59_results (raw : bool) (y : string) : option (list nat) :=
  option_map out_results (fst (check TextLib in_order c59_predef [load_rule TextLib c59_rule] (mkEst (c59_msg raw y) 0))).
Example C59_case : ordinary TextLib c59_predef c59_rule /\ preparable_rule TextLib c59_predef c59_rule /\
  (forall y, In y ["5"; "3"] -> ascii_message (c59_msg false y) /\ twins TextLib (c59_msg false y) (c59_msg true y) /\ indifferent_rule TextLib c59_predef c59_rule (c59_msg false y)) /\
  map (c59_results false) ["5"; "3"] = [Some [2]; Some [0]] /\ map (c59_results true) ["5"; "3"] = [Some [2]; Some [0]].
Proof.
  split; [exact c59_ordinary|]. split; [exact c59_preparable|]. split; [|split; vm_compute; reflexivity].
  intros y HY. split; [apply ascii_messageb_ok; reflexivity|]. split; [apply c59_twins; exact HY|]. intros n HN. apply c59_indifferent; [exact HN|exact HY].
Qed.

(** *** What is left out matters *)
(** null is present in raw bytes; so is a string printed like nil *)
Definition all_in (path tree : string) : string := "{'ALL':{'parentJsonpathAttribute':'jsonpath:" ++ path ++ "','condition':" ++ tree ++ "}}".
Definition c59_differs (L : Lib) (tree doc : string) (b : bool) : bool :=
  gives L in_order tree (parsed_msg doc) b && gives L in_order tree (bytes_msg doc) (negb b).
Theorem C59_null_refuted : exists tree doc, c59_differs TextLib tree doc false = true /\ exists d, laid_out TextLib d (quotes doc).
Proof.
  exists (cond_text "jsonpath:$.a" "EX" ""), "{'a':null}". split; [vm_compute; reflexivity|]. exists (GMapS [("a", GNil)]).
  apply (pl_object TextLib spaces _ (quotes "'a':null")); [|constructor; [intros []|constructor]].
  apply (pm_one TextLib spaces "a" GNil "null" "" "" "" ""); try exact I; [apply plainb; reflexivity|apply pl_null].
Qed.
Print Assumptions C59_null_refuted.
Theorem C59_nil_text_refuted : exists tree doc, c59_differs TextLib tree doc false = true /\ exists d, laid_out TextLib d (quotes doc).
Proof.
  exists (cond_text "jsonpath:$.a" "EX" ""), "{'a':'<nil>'}". split; [vm_compute; reflexivity|]. exists (GMapS [("a", GStr "<nil>")]).
  apply (pl_object TextLib spaces _ (quotes "'a':'<nil>'")); [|constructor; [intros []|constructor]].
  apply (pm_one TextLib spaces "a" (GStr "<nil>") (quotes "'<nil>'") "" "" "" ""); try exact I; [apply plainb; reflexivity|apply pl_string; apply plainb; reflexivity].
Qed.
Print Assumptions C59_nil_text_refuted.
(** elements that are not objects are skipped in raw bytes *)
Theorem C59_elements_refuted : exists tree doc, c59_differs TextLib tree doc false = true /\ exists d, laid_out TextLib d (quotes doc).
Proof.
  exists (all_in "$.x[:]" (x_is "1")), "{'x':[true]}". split; [vm_compute; reflexivity|]. exists (GMapS [("x", GArr [GBool true])]).
  apply (pl_object TextLib spaces _ (quotes "'x':[true]")); [|constructor; [intros []|constructor]].
  apply (pm_one TextLib spaces "x" (GArr [GBool true]) "[true]" "" "" "" ""); try exact I; [apply plainb; reflexivity|].
  apply (pl_array TextLib spaces [GBool true] "true"). apply (pe_one TextLib spaces (GBool true) "true" "" ""); try exact I. apply pl_true.
Qed.
Print Assumptions C59_elements_refuted.
(** EQ of a text and a number *)
Theorem C59_panic_refuted : exists tree doc, gives TextLib in_order tree (parsed_msg doc) false = true /\ panics TextLib tree (bytes_msg doc) = true /\
  exists d, laid_out TextLib d (quotes doc).
Proof.
  exists (cond_text "jsonpath:$.a" "EQ" "text"), "{'a':5}". split; [vm_compute; reflexivity|]. split; [vm_compute; reflexivity|]. exists (GMapS [("a", GFloat (num "5"))]).
  apply (pl_object TextLib spaces _ (quotes "'a':5")); [|constructor; [intros []|constructor]].
  apply (pm_one TextLib spaces "a" (GFloat (num "5")) "5" "" "" "" ""); try exact I; [apply plainb; reflexivity|apply num_text; simpl; tauto].
Qed.
Print Assumptions C59_panic_refuted.
(** nothing at the path of ALL, with a library that fails when there is nothing *)
Theorem C59_all_nothing_refuted : exists tree doc, c59_differs Failing tree doc true = true /\ c59_differs TextLib tree doc true = false.
Proof. exists (all_in "$.x[:]" (x_is "1")), "{'y':1}". split; vm_compute; reflexivity. Qed.
Print Assumptions C59_all_nothing_refuted.
