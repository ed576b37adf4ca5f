(** C22, C50: which evaluations panic, and which results the others may have. *)
From Coq Require Import List String Ascii Bool Arith ZArith.
From Verif Require Import Base GoStr GoFloat Types Json StrUtils Validate Prepare Parse Eval
  Spec_Tree Spec_Extra Tree_truth Tree_laws Spec_Leaf Leaf_laws Spec_Load Load_proofs Decode_proofs Spec_Outcome Outcome_proofs Outcome_laws Spec_Panic Panic_proofs
  Spec_Regex Ref_Regex RefLib RefLib_facts RefLib_numbers Samples Props_Strings.
Import ListNotations.
Open Scope string_scope.

(** ** C22 *)
(** [ready]: loaded and prepared (Spec_Outcome). [condition_cause], [parent_cause]: the situations in which
    a condition or the parent path of ANY/ALL panics; [crash]: evaluation reaches one of them (Spec_Panic). *)
Theorem C22_exact : forall L n m, NumberSpec L -> jp_prepare L "$.*" <> None -> ready L n -> m_raw m <> None ->
  (may_panic L n m <-> crash L n m).
Proof. exact ready_panics. Qed.
Print Assumptions C22_exact.
(** so a tree none of whose conditions and paths has such a defect does not panic *)
Theorem C22_defect : forall L n m, NumberSpec L -> jp_prepare L "$.*" <> None -> ready L n -> m_raw m <> None ->
  may_panic L n m -> defect L n m.
Proof. exact ready_defect. Qed.
Print Assumptions C22_defect.
(** a library that rejects paths not starting with the root leaves no cause in the return values *)
Theorem C22_returns : forall L c m, (forall rest, jp_prepare L ("$RELATIVE" ++ rest) = None) ->
  condition_cause L c m -> condition_cause L (bare L c) m.
Proof. exact bare_cause. Qed.
Print Assumptions C22_returns.

(** the tree written in a JSON text, prepared without predefined strings *)
Definition loads (L : Lib) (tree : string) (n : node L) : Prop :=
  exists v n0 t', json_parse L (quotes tree) = Some v /\ parse_conditions_tree L in_order v 0 = (Ok n0, t') /\
    prepare_node L empty_predef n0 = Ok n.
Theorem C22_loads : forall L tree n, loads L tree n -> ready L n.
Proof.
  intros L tree n (v & n0 & t' & HJ & HL & HP). exists in_order, v, 0, n0, t', empty_predef.
  split; [exact in_order_fair|]. split; [exact (parsed_go_value L _ _ HJ)|]. split; assumption.
Qed.
Print Assumptions C22_loads.

Definition run (L : Lib) (ord : order) (tree : string) (m : message) : option (option (bool * extra)) :=
  match json_parse L (quotes tree) with
  | None => None
  | Some v =>
    match parse_conditions_tree L in_order v 0 with
    | (Ok n0, _) => match prepare_node L empty_predef n0 with Ok n => Some (fst (eval L ord n (mkEst m 0))) | _ => None end
    | _ => None
    end
  end.
Definition panics (L : Lib) (tree : string) (m : message) : bool := match run L in_order tree m with Some None => true | _ => false end.
Definition gives (L : Lib) (ord : order) (tree : string) (m : message) (b : bool) : bool :=
  match run L ord tree m with Some (Some (b', _)) => Bool.eqb b b' | _ => false end.
Lemma run_loads L ord tree m r : run L ord tree m = Some r -> exists n, loads L tree n /\ fst (eval L ord n (mkEst m 0)) = r.
Proof.
  unfold run, loads. destruct (json_parse L (quotes tree)) as [v|]; [|discriminate].
  destruct (parse_conditions_tree L in_order v 0) as [[n0| |] t'] eqn:HL; try discriminate.
  destruct (prepare_node L empty_predef n0) as [n| |] eqn:HP; try discriminate.
  intro H. injection H as <-. exists n. split; [|reflexivity]. exists v, n0, t'. auto.
Qed.
Lemma panics_ok L tree m : panics L tree m = true -> exists n, loads L tree n /\ may_panic L n m.
Proof.
  unfold panics. destruct (run L in_order tree m) as [[r|]|] eqn:E; try discriminate. intros _. apply run_loads in E.
  destruct E as (n & HL & HE). exists n. split; [exact HL|]. destruct (eval L in_order n (mkEst m 0)) as [o s] eqn:EV. simpl in HE. subst o.
  exists in_order, 0, s. split; [exact in_order_fair|exact EV].
Qed.

Definition any_in (path tree : string) : string := "{'ANY':{'parentJsonpathAttribute':'jsonpath:" ++ path ++ "','condition':" ++ tree ++ "}}".
Definition fine : string := cond_text "jsonpath:$.a" "EX" "".
Definition c22_doc : message := parsed_msg "{'a':[1,{'k':2}]}".
Definition with_version (m : message) (v : f64) : message :=
  mkMessage (m_source_ip m) (m_source_namespace m) (m_source_cluster m) (m_dest_ip m) (m_dest_port m)
   (m_dest_namespace m) (m_dest_cluster m) (m_path m) (m_host m) (m_method m) (m_size m) (m_time m)
   (m_useragent m) (m_protocol m) (m_id m) (m_source_service m) (m_dest_service m)
   (m_source_labels_json m) (m_dest_labels_json m) (m_context_type m) (m_enc_type m) (Some v)
   (m_json m) (m_json_rel m) (m_raw m) (m_raw_rel m) (m_domain m) (m_t_sec m) (m_t_min m) (m_t_hours m)
   (m_source_netip m) (m_dest_netip m) (m_source_labels m) (m_dest_labels m).
Definition c22_versioned : message := with_version c22_doc f_zero.
(** a tree and a message for each cause; the causes are reached or not as in [crash] *)
Definition c22_panicking : list (string * message) :=
  [(cond_text "payloadSize" "EQ" "abc", c22_doc); (cond_text "utcHoursFromMidnight" "EQ" "noon", c22_doc);
   (cond_text "encryptionVersion" "GE" "1.3", c22_doc); (cond_text "encryptionVersion" "EQ" "new", c22_versioned);
   (any_in "$.a[0]" fine, c22_doc); (any_in "$RELATIVE.b" fine, c22_doc); (any_in "$.a[:]" (any_in "$RELATIVE*" fine), c22_doc);
   (any_in "$.a[:]" (cond_text "jsonpath:$KEY" "EQ" "k"), c22_doc); (any_in "$.a[:]" (cond_text "jsonpath:$VALUE" "EQ" "2"), c22_doc);
   (two "OR" fine (cond_text "payloadSize" "EQ" "abc"), c22_doc);
   (two "AND" fine (cond_text "payloadSize" "EQ" "abc"), c22_doc)].
Example C22_case : NumberSpec RefLib /\ jp_prepare RefLib "$.*" <> None /\ m_raw c22_doc <> None /\
  Forall (fun e => exists n, loads RefLib (fst e) n /\ may_panic RefLib n (snd e)) c22_panicking /\
  gives RefLib in_order (two "AND" ("{'NOT':" ++ fine ++ "}") (cond_text "payloadSize" "EQ" "abc")) c22_doc false = true.
Proof.
  split; [exact RefLib_number|]. split; [vm_compute; discriminate|]. split; [vm_compute; discriminate|]. split; [|vm_compute; reflexivity].
  apply Forall_forall. intros e HI. apply panics_ok. revert e HI. apply forallb_forall. vm_compute. reflexivity.
Qed.
(** a library that also accepts paths starting with $RELATIVE: a return value then reads a missing element *)
Definition Lenient : Lib :=
  mkLib rx rx_compile rx_match (list step) (fun s => if String.prefix "$RELATIVE" s then Some [] else ref_jp_prepare s) ref_jp_query ref_js_get
    (ref_ugly_from false false) ref_parse_float ref_fmt_float ref_json_float (fun _ => "map[]") ref_parse_ip ref_parse_cidr ref_parse_time (fun s => s) (@Some rx).
Definition c22_returning : string :=
  "{'attribute':'jsonpath:$.a','method':'EX','value':'','returnValueJsonpath':{'x':'jsonpath:$RELATIVE.b'}}".
Example C22_return_case : NumberSpec Lenient /\ (exists n, loads Lenient c22_returning n /\ may_panic Lenient n c22_doc) /\
  (exists n, loads Lenient (any_in "$.a" c22_returning) n) /\ panics RefLib c22_returning c22_doc = false.
Proof.
  split; [exact RefLib_number|]. split; [apply panics_ok; vm_compute; reflexivity|]. split; [|vm_compute; reflexivity].
  destruct (run Lenient in_order (any_in "$.a" c22_returning) c22_doc) as [r|] eqn:E.
  - apply run_loads in E. destruct E as (n & H & _). exists n. exact H.
  - vm_compute in E. discriminate.
Qed.

(** ** C50 *)
(** [may_yield L n m b x]: for some legal order of the map iterations evaluating [n] on [m] gives [b] with the
    extra data [x]; [tree_outcome] (Spec_Extra) is the specification of C11-C15 *)
Theorem C50_outcomes : forall L n m b x, ready L n ->
  (may_yield L n m b x <-> tree_outcome L (leaf_outcome L) (contexts L) (any_record L) n m b x).
Proof. exact ready_exact. Qed.
Print Assumptions C50_outcomes.
(** the parts of a tree are independent: each takes whichever of its values it may take *)
Theorem C50_and_true : forall L ns m, ready L (NAnd ns) ->
  (may_return L (NAnd ns) m true <-> Forall (fun n => may_return L n m true) ns).
Proof. exact and_may_true. Qed.
Print Assumptions C50_and_true.
Theorem C50_and_false : forall L ns m, ready L (NAnd ns) ->
  (may_return L (NAnd ns) m false <-> exists before n after, ns = (before ++ n :: after)%list /\
     Forall (fun n => may_return L n m true) before /\ may_return L n m false).
Proof. exact and_may_false. Qed.
Print Assumptions C50_and_false.
Theorem C50_or : forall L ns m b, ready L (NOr ns) ->
  (may_return L (NOr ns) m b <-> exists bs, Forall2 (fun n b => may_return L n m b) ns bs /\ (b = true <-> In true bs)).
Proof. exact or_may. Qed.
Print Assumptions C50_or.
Theorem C50_not : forall L n m b, ready L (NNot n) -> (may_return L (NNot n) m b <-> may_return L n m (negb b)).
Proof. exact not_may. Qed.
Print Assumptions C50_not.
Theorem C50_all_true : forall L a n m, ready L (NQuant QAll a n) ->
  (may_return L (NQuant QAll a n) m true <-> exists ms, contexts L a m (Some ms) /\ Forall (fun m' => may_return L n m' true) ms).
Proof. exact all_may_true. Qed.
Print Assumptions C50_all_true.
Theorem C50_all_false : forall L a n m, ready L (NQuant QAll a n) ->
  (may_return L (NQuant QAll a n) m false <-> contexts L a m None \/ exists before m' after, contexts L a m (Some (before ++ m' :: after)%list) /\
     Forall (fun m' => may_return L n m' true) before /\ may_return L n m' false).
Proof. exact all_may_false. Qed.
Print Assumptions C50_all_false.
Theorem C50_any_true : forall L a n m, ready L (NQuant QAny a n) -> declared L a = [] ->
  (may_return L (NQuant QAny a n) m true <-> exists before m' after, contexts L a m (Some (before ++ m' :: after)%list) /\
     Forall (fun m' => may_return L n m' false) before /\ may_return L n m' true).
Proof. exact any_may_true. Qed.
Print Assumptions C50_any_true.
Theorem C50_any_false : forall L a n m, ready L (NQuant QAny a n) ->
  (may_return L (NQuant QAny a n) m false <-> contexts L a m None \/ exists ms, contexts L a m (Some ms) /\ Forall (fun m' => may_return L n m' false) ms).
Proof. exact any_may_false. Qed.
Print Assumptions C50_any_false.

(** the key of an object with two entries equals either, and a condition may differ from itself *)
Definition alternating : order := fun t ks => if Nat.even t then ks else rev ks.
Lemma alternating_fair : fair alternating.
Proof.
  intros t ks. unfold alternating. destruct (Nat.even t); [apply Permutation.Permutation_refl|apply Permutation.Permutation_sym, Permutation.Permutation_rev].
Qed.
Lemma gives_ok L ord tree m b : fair ord -> gives L ord tree m b = true -> exists n, loads L tree n /\ may_return L n m b.
Proof.
  intro HF. unfold gives. destruct (run L ord tree m) as [[[b' x]|]|] eqn:E; try discriminate. intro H. apply Bool.eqb_prop in H. subst b'.
  apply run_loads in E. destruct E as (n & HL & HE). exists n. split; [exact HL|].
  destruct (eval L ord n (mkEst m 0)) as [o s] eqn:EV. simpl in HE. subst o. exists ord, 0, x, s. split; [exact HF|exact EV].
Qed.
Definition c50_key : string := cond_text "jsonpath:$KEY" "EQ" "k".
Definition c50_doc : message := parsed_msg "{'a':[{'k':1,'l':2}]}".
Definition c50_both : string := any_in "$.a[:]" (two "AND" c50_key ("{'NOT':" ++ c50_key ++ "}")).
Example C50_case : (exists n, loads RefLib c50_both n /\ may_return RefLib n c50_doc true) /\
  (exists n, loads RefLib c50_both n /\ may_return RefLib n c50_doc false).
Proof.
  split.
  - apply gives_ok with alternating; [exact alternating_fair|vm_compute; reflexivity].
  - apply gives_ok with in_order; [exact in_order_fair|vm_compute; reflexivity].
Qed.
