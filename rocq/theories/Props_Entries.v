(** C65: conditions on the keys and values of an object, parsed and as raw bytes. *)
From Coq Require Import List String Ascii Bool Arith ZArith.
From Verif Require Import Base GoStr GoFloat Types Json StrUtils GoStr_facts Validate Prepare Parse Lifecycle Eval Check
  Spec_Tree Spec_Glob Spec_Match Spec_Leaf Leaf_samples Number_proofs Spec_Validate Spec_Load Load_proofs Decode_proofs Spec_Copy Spec_Grammar Grammar_proofs Grammar_tree Spec_Json Spec_MongoMatch Spec_Meaning
  Spec_Backends Backends_proofs Backends_rules Glob_proofs Json_proofs RefLib RefLib_facts RefLib_paths Text_lib Samples Props_Match Props_Copy Props_Strings Props_Meaning Props_Panic Props_Raw Props_Accept Props_Backends.
Import ListNotations.
Open Scope string_scope.

(** [twins], [agreeable] as for C59; [as_printed]: values that encoding/json prints as they were written; [entry_has]: the key or
    the value of the entry satisfies the condition (Spec_Backends). *)
Theorem C65_entries : forall L p q a c n ord m m' t t' d o ks k v (value : bool),
  PathSpec L -> TextSpec L -> PathsAccepted L -> EntriesSpec L -> NumberSpec L -> (forall rest, jp_prepare L ("$RELATIVE" ++ rest) = None) ->
  loaded_tree L (NQuant q a (NCond c)) -> prepare_node L p (NQuant q a (NCond c)) = Ok n -> fair ord ->
  a_parent a = "$." ++ dotted ks -> ks <> [] -> Forall field_name ks -> c_attr c = (if value then "jsonpath:$VALUE" else "jsonpath:$KEY") ->
  method_is (c_method c) k -> replaced p (c_method c) (c_value c) v -> plain_value v ->
  twins L m m' -> m_raw m = Some d -> at_path ks d (Some (GMapS o)) -> Forall (fun kx => no_html (fst kx) /\ as_printed L (snd kx)) o ->
  Forall (fun kx => agreeable L k v (Some (if value then snd kx else GStr (fst kx)))) o ->
  exists b x e x' e', eval L ord n (mkEst m t) = (Some (b, x), e) /\ eval L ord n (mkEst m' t') = (Some (b, x'), e') /\
    (b = true <-> match q with QAny => Exists (entry_has L value k v) o | QAll => Forall (entry_has L value k v) o end).
Proof. intros L p q a c n ord m m' t t' d o ks k v value H1 H2 H3 H4. exact (entries_twins L p H1 H2 H3 H4 q a c n ord m m' t t' d o ks k v value). Qed.
Print Assumptions C65_entries.

(** ** Labels *)
Definition over (q path tree : string) : string := "{'" ++ q ++ "':{'parentJsonpathAttribute':'jsonpath:" ++ path ++ "','condition':" ++ tree ++ "}}".
Definition c65_tree (q att value : string) : option (node TextLib) := text_tree (over q "$.labels" (cond_text att "EQ" value)).
Definition c65_object : list (string * iface) := [("tier", GStr "back"); ("app", GStr "web")].
Definition c65_doc : iface := GMapS [("labels", GMapS c65_object)].
Definition c65_bytes : string := quotes "{'labels': {'tier':'back', 'app':'web'}}".
Definition c65_msg (raw : bool) : message := if raw then set_json c59_base (Some c65_bytes) else set_raw c59_base (Some c65_doc).
Lemma c65_laid : laid_out TextLib c65_doc c65_bytes.
Proof.
  assert (S0 : spaces "") by exact I. assert (S1 : spaces " ") by (split; [vm_compute; tauto|exact I]).
  assert (P : forall k, In k ["labels"; "tier"; "back"; "app"; "web"] -> plain_string k) by (intros k HK; apply plainb; repeat (destruct HK as [<-|HK]; [vm_compute; reflexivity|]); destruct HK).
  pose proof (pl_object TextLib spaces _ _ (pm_cons TextLib spaces "tier" _ _ "" "" "" "" _ _ S0 S0 S0 S0 (P "tier" ltac:(simpl; tauto)) (pl_string TextLib spaces "back" (P "back" ltac:(simpl; tauto)))
     (pm_one TextLib spaces "app" _ _ " " "" "" "" S1 S0 S0 S0 (P "app" ltac:(simpl; tauto)) (pl_string TextLib spaces "web" (P "web" ltac:(simpl; tauto)))))
     ltac:(constructor; [intros [E|[]]; discriminate E|constructor; [intros []|constructor]])) as O.
  exact (pl_object TextLib spaces _ _ (pm_one TextLib spaces "labels" _ _ "" "" " " "" S0 S0 S1 S0 (P "labels" ltac:(simpl; tauto)) O) ltac:(constructor; [intros []|constructor])).
Qed.
Lemma c65_twins : twins TextLib (c65_msg false) (c65_msg true).
Proof. split; [reflexivity|]. split; [reflexivity|]. split; [|left; split; reflexivity]. exists c65_doc, c65_bytes. split; [reflexivity|]. split; [reflexivity|]. exact c65_laid. Qed.
Definition c65_shape (t : option (node TextLib)) : option (quant * list string) :=
  match t with
  | Some (NQuant q a (NCond c)) =>
    match r_orig (c_ret c), r_orig (a_ret a) with None, None => Some (q, [a_parent a; a_orig a; c_attr c; c_method c; c_value c]) | _, _ => None end
  | _ => None
  end.
Lemma c65_shape_ok t q l : c65_shape t = Some (q, l) -> exists a c, t = Some (NQuant q a (NCond c)) /\ r_orig (c_ret c) = None /\ r_orig (a_ret a) = None /\
  [a_parent a; a_orig a; c_attr c; c_method c; c_value c] = l.
Proof.
  intro HS. destruct t as [n|]; [|discriminate HS]. destruct n as [| | |q' a n| | | |]; try discriminate HS. destruct n as [| | | | | |c|]; try discriminate HS.
  cbn [c65_shape] in HS. destruct (r_orig (c_ret c)) eqn:R1; [discriminate HS|]. destruct (r_orig (a_ret a)) eqn:R2; [discriminate HS|]. injection HS as -> <-. exists a, c. auto.
Qed.
Definition c65_runs (raw : bool) (q att value : string) : bool :=
  gives TextLib in_order (over q "$.labels" (cond_text att "EQ" value)) (c65_msg raw) true.
Definition word s := s <> "" /\ all_chars (fun c => ~ In c ["["; "]"; dq; "<"; ">"; "&"]%char) s.
Lemma word_agreeable k v s : word s -> not_number TextLib s -> agreeable TextLib k v (Some (GStr s)).
Proof.
  intros [HN HC] HX. assert (A : forall c, In c ["["; "]"; dq; "<"]%char -> all_chars (fun x => x <> c) s).
  { intros c HI. eapply all_chars_impl; [|exact HC]. intros x HX' ->. apply HX'. simpl in HI |- *. tauto. }
  pose proof (A dq ltac:(simpl; auto)) as AQ. pose proof (A "["%char ltac:(simpl; auto)) as AO. pose proof (A "]"%char ltac:(simpl; auto)) as AC.
  apply ag_string.
  - split; [exact HN|]. repeat split.
    + intros ->. destruct AO as [E _]. congruence.
    + intros a b. apply (char_absent "["%char s a ("[" ++ b)). exact AO.
    + intros a b. apply (char_absent "]"%char s a ("]" ++ b)). exact AC.
    + intros a b. apply (char_absent "["%char s a (dqs ++ b)). exact AO.
    + intros a b. apply (char_absent dq s a ("]" ++ b)). exact AQ.
    + intros [r E]. revert E. apply (char_absent dq s "" r). exact AQ.
    + intro a. apply (char_absent dq s a ""). exact AQ.
  - intros ->. destruct (A "<"%char ltac:(simpl; auto)) as [E _]. congruence.
  - intros [r E]. revert E. apply (char_absent "]"%char s "" r). exact AC.
  - intro a. apply (char_absent "["%char s a ""). exact AO.
  - intros _ _. exact HX.
Qed.
Lemma c65_words s : In s ["tier"; "back"; "app"; "web"] -> word s /\ not_number TextLib s /\ no_html s.
Proof.
  intro H. assert (W : word s).
  { destruct H as [<-|[<-|[<-|[<-|[]]]]]; (split; [discriminate|]); repeat split; (intro X; repeat (destruct X as [X|X]; [discriminate X|]); destruct X). }
  split; [exact W|]. split.
  - apply not_number_iff. destruct H as [<-|[<-|[<-|[<-|[]]]]]; vm_compute; reflexivity.
  - eapply all_chars_impl; [|apply W]. intros c HC HI. apply HC. simpl in HI |- *. tauto.
Qed.
(** ANY label key is app: yes; ALL label values are web: no *)
Example C65_case : forall q att value, In (q, att, value) [("ANY", "jsonpath:$KEY", "app"); ("ALL", "jsonpath:$VALUE", "web"); ("ANY", "jsonpath:$VALUE", "we"); ("ALL", "jsonpath:$KEY", "app")] ->
  exists q' a c n, c65_tree q att value = Some (NQuant q' a (NCond c)) /\ loaded_tree TextLib (NQuant q' a (NCond c)) /\ prepare_node TextLib (mkPredef [] [] []) (NQuant q' a (NCond c)) = Ok n /\
    a_parent a = "$." ++ dotted ["labels"] /\ Forall field_name ["labels"] /\ c_attr c = att /\
    method_is (c_method c) KEq /\ replaced (mkPredef [] [] []) (c_method c) (c_value c) value /\ plain_value value /\
    twins TextLib (c65_msg false) (c65_msg true) /\ at_path ["labels"] c65_doc (Some (GMapS c65_object)) /\
    Forall (fun kx => no_html (fst kx) /\ as_printed TextLib (snd kx)) c65_object /\
    forall vl : bool, Forall (fun kx => agreeable TextLib KEq value (Some (if vl then snd kx else GStr (fst kx)))) c65_object.
Proof.
  intros q att value H.
  assert (HS : exists q', c65_shape (c65_tree q att value) = Some (q', ["$.labels"; "jsonpath:$.labels"; att; "EQ"; value])).
  { destruct H as [H|[H|[H|[H|[]]]]]; injection H as <- <- <-; eexists; vm_compute; reflexivity. }
  assert (HP : match c65_tree q att value with Some n => match prepare_node TextLib (mkPredef [] [] []) n with Ok _ => true | _ => false end | None => false end = true).
  { destruct H as [H|[H|[H|[H|[]]]]]; injection H as <- <- <-; vm_compute; reflexivity. }
  assert (HV : printableb att = true /\ printableb value = true /\ ~ starts "#" value /\ plain_value value).
  { destruct H as [H|[H|[H|[H|[]]]]]; injection H as <- <- <-; (split; [reflexivity|]); (split; [reflexivity|]); (split; [intros [r E]; discriminate E|]); split; intros [r E]; discriminate E. }
  destruct HV as (V1 & V2 & V3 & V4). destruct HS as [q' HS]. destruct (c65_shape_ok _ _ _ HS) as (a & c & ET & R1 & R2 & HE). injection HE as A1 A2 C1 C2 C3.
  pose proof ET as ET0. rewrite ET in HP. destruct (prepare_node TextLib (mkPredef [] [] []) (NQuant q' a (NCond c))) as [n| |] eqn:EN; try discriminate HP.
  exists q', a, c, n. split; [exact ET|]. split.
  { split; [apply cp_quant; [rewrite A2; apply unescapedb_ok; reflexivity|rewrite R2; exact I|apply cp_cond; [rewrite C1; apply printableb_ok; exact V1|rewrite C3; apply printableb_ok; exact V2|rewrite R1; exact I]]|].
    unfold c65_tree, text_tree in ET0. destruct (json_parse TextLib _) as [v|] eqn:HJ; [|discriminate ET0].
    destruct (parse_conditions_tree TextLib in_order v 0) as [[n'| |] t'] eqn:HL; try discriminate ET0. injection ET0 as ->.
    exists v. pose proof (parsed_go_value TextLib _ _ HJ) as HG. split; [exact HG|]. exact (grammar_sound TextLib in_order v 0 _ t' in_order_fair HG HL). }
  split; [exact EN|]. split; [exact A1|]. split; [constructor; [split; [discriminate|]; repeat split; right; right; left; split; apply Nat.leb_le; reflexivity|constructor]|].
  split; [exact C1|]. split; [rewrite C2; unfold method_is; simpl; tauto|]. split; [rewrite C3; constructor; exact V3|]. split; [exact V4|]. split; [exact c65_twins|].
  split; [eapply ap_member; [reflexivity|]; apply ap_here|]. split.
  - constructor; [|constructor; [|constructor]]; (split; [apply c65_words; simpl; tauto|]); apply as_string; apply c65_words; simpl; tauto.
  - intro vl. constructor; [|constructor; [|constructor]]; destruct vl; apply word_agreeable; apply c65_words; simpl; tauto.
Qed.
Example C65_runs : map (fun raw => [c65_runs raw "ANY" "jsonpath:$KEY" "app"; c65_runs raw "ALL" "jsonpath:$VALUE" "web"; c65_runs raw "ANY" "jsonpath:$VALUE" "we";
    c65_runs raw "ALL" "jsonpath:$KEY" "app"; c65_runs raw "ANY" "jsonpath:$VALUE" "back"]) [false; true] =
  [[true; false; false; false; true]; [true; false; false; false; true]].
Proof. vm_compute. reflexivity. Qed.

(** *** What is left out matters *)
(** characters that encoding/json escapes: EQ with the very value of the entry *)
Theorem C65_html_refuted : exists tree doc, c59_differs TextLib tree doc true = true /\ exists d, laid_out TextLib d (quotes doc).
Proof.
  exists (over "ANY" "$.x" (cond_text "jsonpath:$VALUE" "EQ" "a<b")), "{'x':{'k':'a<b'}}". split; [vm_compute; reflexivity|]. exists (GMapS [("x", GMapS [("k", GStr "a<b")])]).
  apply (pl_object TextLib spaces _ (quotes "'x':{'k':'a<b'}")); [|constructor; [intros []|constructor]].
  apply (pm_one TextLib spaces "x" _ (quotes "{'k':'a<b'}") "" "" "" ""); try exact I; [apply plainb; reflexivity|].
  apply (pl_object TextLib spaces _ (quotes "'k':'a<b'")); [|constructor; [intros []|constructor]].
  apply (pm_one TextLib spaces "k" _ (quotes "'a<b'") "" "" "" ""); try exact I; [apply plainb; reflexivity|apply pl_string; apply plainb; reflexivity].
Qed.
Print Assumptions C65_html_refuted.
(** numbers that encoding/json prints differently from fmt; the same value at a path is not affected *)
Theorem C65_number_refuted : exists tree tree' doc doc', c59_differs TextLib tree doc true = true /\
  gives TextLib in_order tree' (parsed_msg doc') true = true /\ gives TextLib in_order tree' (bytes_msg doc') true = true.
Proof.
  exists (over "ANY" "$.x" (cond_text "jsonpath:$VALUE" "RE" "^1e")), (cond_text "jsonpath:$.x" "RE" "^1e"), "{'x':{'a':1e+07}}", "{'x':1e+07}".
  split; [vm_compute; reflexivity|]. split; vm_compute; reflexivity.
Qed.
Print Assumptions C65_number_refuted.
