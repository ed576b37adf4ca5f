(** C60: trees stored as BSON documents. *)
From Coq Require Import List String Ascii Bool Arith ZArith Permutation.
From Verif Require Import Base GoStr GoFloat Types Json StrUtils Validate Prepare Parse Marshal Lifecycle Spec_Tree Spec_Glob Spec_Json Json_proofs
  Print_proofs Spec_Load Decode_proofs Load_proofs Spec_Copy Copy_proofs Spec_Grammar Grammar_tree Store Spec_Store Store_proofs Spec_Crash Crash_proofs RefLib RefLib_facts Samples Props_Copy.
Import ListNotations.
Open Scope string_scope.

(** [copyable] (Spec_Copy), [named], [BsonSpec] (Spec_Store) *)
Theorem C60_stored : forall L bson_marshal bson_unmarshal ord v t n t', BsonSpec bson_marshal bson_unmarshal ->
  fair ord -> go_value v -> parse_conditions_tree L ord v t = (Ok n, t') -> copyable L n -> named L n ->
  exists data, marshal_bson_tree L bson_marshal (Some n) = Ok data /\
    forall ord' u, fair ord' -> exists u', unmarshal_bson_tree L ord' bson_unmarshal data u = (Ok (Some n), u').
Proof.
  intros L bm bu ord v t n t' HB HF HG HP HC HN. exact (stored L bm bu HB n HC HN (tree_made L ord HF v t n t' HG HP)).
Qed.
Print Assumptions C60_stored.

(** a rule without conditions *)
Theorem C60_nil : forall L bson_marshal bson_unmarshal, BsonSpec bson_marshal bson_unmarshal ->
  exists data, marshal_bson_tree L bson_marshal None = Ok data /\ forall ord t, unmarshal_bson_tree L ord bson_unmarshal data t = (Ok None, t).
Proof. exact empty_stored. Qed.
Print Assumptions C60_nil.

(** A value that stands for a tree can be printed and read again, although printing lists all keys in order.
    [reads] (Spec_Grammar), [single] (Spec_Load), [listed] (Spec_Store) *)
Theorem C60_reprinted : forall L ord v n, fair ord -> numberless v -> single v -> reads L "" v n -> listed L n ->
  exists s, json_marshal L v = Some s /\ forall t, exists t', unmarshal_json_tree L ord s t = (Ok (Some n), t').
Proof. exact reprinted. Qed.
Print Assumptions C60_reprinted.

(** Not every tree that loads can be stored and loaded again. *)
Theorem C60_empty_and_refuted : forall L bson_marshal bson_unmarshal, BsonSpec bson_marshal bson_unmarshal ->
  (forall ord t, fair ord -> exists t', parse_conditions_tree L ord (GMapS [("AND", GArr [])]) t = (Ok (NAnd []), t')) /\
  exists data, marshal_bson_tree L bson_marshal (Some (NAnd [])) = Ok data /\
    forall ord t, unmarshal_bson_tree L ord bson_unmarshal data t = (Err, t).
Proof.
  intros L bm bu HB. split; [|exact (empty_and_stored L bm bu HB)].
  intros ord t HF. apply grammar_every_order; auto.
  - apply one_go_value. constructor. constructor.
  - apply one_single; [constructor; constructor|]. apply not_quant. simpl. intuition discriminate.
  - apply (rd_keyword L "" _ "AND" (GArr [])); [left; reflexivity|simpl; auto|]. apply (rd_list L "AND" [] [] NAnd); [simpl; auto|constructor].
Qed.
Print Assumptions C60_empty_and_refuted.

(** Bytes that are no document, or a document that cannot be printed as JSON, are an error; loading panics exactly where loading the
    printed document does.  [crashes] (Spec_Crash) *)
Theorem C60_unreadable : forall L bson_unmarshal data t,
  ((forall doc, bson_unmarshal data = Some doc -> json_marshal L (GMapS doc) = None) -> forall ord, unmarshal_bson_tree L ord bson_unmarshal data t = (Err, t)) /\
  ((exists ord, fair ord /\ fst (unmarshal_bson_tree L ord bson_unmarshal data t) = Panic) <->
   exists doc s v, bson_unmarshal data = Some doc /\ json_marshal L (GMapS doc) = Some s /\ document L v s /\ crashes L "" v).
Proof.
  intros L bu data t. unfold unmarshal_bson_tree. destruct (bu data) as [doc|]; [destruct (json_marshal L (GMapS doc)) as [s|] eqn:E|].
  - split; [intro H; specialize (H doc eq_refl); congruence|]. rewrite <- json_panics. split.
    + intros (v & HD & HC). exists doc, s, v. auto.
    + intros (doc' & s' & v & ED & ES & HD & HC). injection ED as <-. rewrite E in ES. injection ES as <-. eauto.
  - split; [reflexivity|]. split; [intros (ord & _ & H); discriminate H|]. intros (doc' & s' & v & ED & ES & _). injection ED as <-. congruence.
  - split; [reflexivity|]. split; [intros (ord & _ & H); discriminate H|]. intros (doc' & s' & v & ED & _). discriminate ED.
Qed.
Print Assumptions C60_unreadable.

(** storing succeeds exactly if the text of the tree is that of an object (or null) which can be stored, and panics where the tree has no text *)
Theorem C60_storable : forall L bson_marshal t,
  (forall data, marshal_bson_tree L bson_marshal t = Ok data <->
    exists s doc, tree_json L t = Ok s /\ (document L (GMapS doc) s \/ (document L GNil s /\ doc = [])) /\ bson_marshal doc = Some data) /\
  (marshal_bson_tree L bson_marshal t = Panic <-> tree_json L t = Panic).
Proof.
  intros L bm t. unfold marshal_bson_tree, json_document. destruct (tree_json L t) as [s| |]; cbn [rbind]; [|split; [intro data|]; split; try discriminate; intros (s & doc & E & _); discriminate E..|split; [|tauto]; intro data; split; [discriminate|intros (s & doc & E & _); discriminate E]].
  assert (HP : forall v, document L v s <-> json_parse L s = Some v) by (intro v; symmetry; apply parse_iff). split.
  - intro data. split.
    + destruct (json_parse L s) as [v|] eqn:E; [|discriminate]. destruct v as [| | | | | |m|]; try discriminate; intro H.
      * destruct (bm []) as [d|] eqn:EB; [|discriminate H]. injection H as <-. exists s, []. split; [reflexivity|]. split; [right; split; [apply HP; reflexivity|reflexivity]|exact EB].
      * destruct (bm m) as [d|] eqn:EB; [|discriminate H]. injection H as <-. exists s, m. split; [reflexivity|]. split; [left; apply HP; reflexivity|exact EB].
    + intros (s' & doc & E & HD & HB). injection E as <-. destruct HD as [HD|[HD ->]]; apply HP in HD; rewrite HD, HB; reflexivity.
  - split; [|discriminate]. destruct (json_parse L s) as [[| | | | | |m|]|]; try discriminate; destruct (bm _); discriminate.
Qed.
Print Assumptions C60_storable.

(** ** A store that returns all maps backwards *)
Fixpoint flip (v : iface) : iface :=
  match v with
  | GArr l => GArr (map flip l)
  | GMapS m => GMapS (rev (map (fun e => (fst e, flip (snd e))) m))
  | _ => v
  end.
Lemma flip_reordered v : numberless v -> reordered v (flip v).
Proof.
  induction v as [| | | | |l IH|m IH|m IH] using iface_ind'; intro H; inversion H as [| | |? HL|? HD HL]; subst; try constructor.
  - clear H. induction IH; inversion HL; subst; simpl; constructor; auto.
  - cbn [flip]. eapply ro_map; [|apply Permutation_rev]. clear H HD. induction IH; inversion HL; subst; simpl; constructor; auto.
Qed.
Definition flip_marshal (doc : list (string * iface)) : option string := json_marshal RefLib (GMapS doc).
Definition flip_unmarshal (data : string) : option (list (string * iface)) :=
  match json_parse RefLib data with
  | Some v => match flip v with GMapS m => Some m | _ => None end
  | None => None
  end.
Lemma reordered_trans v : forall v1 v2, reordered v v1 -> reordered v1 v2 -> reordered v v2.
Proof.
  induction v as [| | | | |l IH|m IH|m IH] using iface_ind'; intros v1 v2 H1 H2; inversion H1 as [| | |? l' HF|? m' m2 HF HP]; subst;
    inversion H2 as [| | |? l2 HF2|? m3 m4 HF2 HP2]; subst; try constructor.
  - clear H1 H2. revert l' l2 HF HF2. induction IH as [|x l HX IH IHl]; intros l' l2 HF HF2; inversion HF; subst; inversion HF2; subst; constructor; eauto.
  - destruct (forall2_perm _ _ _ _ (Permutation_sym HP) HF2) as (m5 & HF5 & HP5).
    apply (ro_map m m3 m5); [|eapply Permutation_trans; [apply Permutation_sym; exact HP5|exact HP2]].
    clear H1 H2 HP HP2 HP5 HF2. revert m2 m5 HF HF5.
    induction IH as [|x l HX IH IHl]; intros m2 m5 HF HF5; inversion HF as [|? ? ? ? (E1 & R1)]; subst; inversion HF5 as [|? ? ? ? (E2 & R2)]; subst; constructor; eauto.
    split; [congruence|]. eapply HX; eauto.
Qed.
Lemma flip_spec : BsonSpec flip_marshal flip_unmarshal.
Proof.
  intros doc HS. apply storable_numberless in HS. destruct (print_parse RefLib (GMapS doc) HS) as (v' & s & E1 & E2 & HK).
  apply order_reordered in HK. pose proof (reordered_trans _ _ _ HK (flip_reordered v' (reordered_numberless _ _ HK HS))) as HR.
  unfold flip_marshal, flip_unmarshal. rewrite E1. exists s.
  inversion HR as [| | | |? m' m2 HF HP E EF]. exists m'. rewrite E2, <- EF. split; auto. split; auto. eapply ro_map; eauto.
Qed.

Fixpoint namedb (n : node RefLib) : bool :=
  let ok (m : option (list (string * string))) :=
    match m with Some l => forallb (fun e => all_charsb (fun c => negb (nat_of_ascii c =? 0)%nat) (fst e)) l | None => true end in
  match n with
  | NAnd ns | NOr ns => forallb namedb ns
  | NNot n => namedb n
  | NQuant _ a n => ok (r_orig (a_ret a)) && namedb n
  | NCond c => ok (r_orig (c_ret c))
  | _ => true
  end.
Lemma key_textb_ok l : forallb (fun e : string * string => all_charsb (fun c => negb (nat_of_ascii c =? 0)%nat) (fst e)) l = true -> Forall (fun e => key_text (fst e)) l.
Proof.
  rewrite forallb_forall, Forall_forall. intros H e HI. specialize (H e HI). revert H. apply all_charsb_ok. intros c H. apply negb_true_iff, Nat.eqb_neq in H. exact H.
Qed.
Lemma namedb_ok n : namedb n = true -> named RefLib n.
Proof.
  induction n as [ns IH|ns IH|n IH|q a n IH| | |c|] using (Tree_proofs.node_ind' RefLib); cbn [namedb]; intros H m HR;
    inversion HR as [? ER|? ? ? ER|? ? ? ER|x ? HI ER|x ? HI ER|? ER]; subst.
  - rewrite forallb_forall in H. rewrite Forall_forall in IH. exact (IH x HI (H x HI) m ER).
  - rewrite forallb_forall in H. rewrite Forall_forall in IH. exact (IH x HI (H x HI) m ER).
  - exact (IH H m ER).
  - apply andb_true_iff in H. destruct H as [H _]. rewrite ER in H. apply key_textb_ok. exact H.
  - apply andb_true_iff in H. destruct H as [_ H]. exact (IH H m ER).
  - rewrite ER in H. apply key_textb_ok. exact H.
Qed.

(** what the stored tree of a text holds when it is loaded again *)
Definition stored_of (s : string) : copied :=
  match load_tree s with
  | Some n =>
    match marshal_bson_tree RefLib flip_marshal (Some n) with
    | Ok data => match fst (unmarshal_bson_tree RefLib in_order flip_unmarshal data 0) with
                 | Ok (Some n') => if list_eq_dec string_dec (contents n) (contents n') then Same (contents n) else Other (contents n) (contents n')
                 | _ => Fails (contents n)
                 end
    | _ => Fails (contents n)
    end
  | None => NotLoaded
  end.
Example C60_case :
  BsonSpec flip_marshal flip_unmarshal /\
  (exists n, load_tree copy_sample = Some n /\ copyable RefLib n /\ named RefLib n) /\
  stored_of copy_sample = Same ["AND"; "NOT"; "domain"; "EQ"; quotes "a\b'c"; "ANY"; "jsonpath:$.a[:]"; "k"; "jsonpath:$RELATIVE.x";
    "l"; quotes "jsonpath:$RELATIVE.'y'"; "OR"; "jsonpath:$RELATIVE.b"; "EX"; ""] /\
  stored_of "{'AND':[]}" = Fails ["AND"] /\
  flip (GMapS [("a", GArr [GMapS [("x", GNil); ("y", GNil)]]); ("b", GNil)]) = GMapS [("b", GNil); ("a", GArr [GMapS [("y", GNil); ("x", GNil)]])].
Proof.
  split; [exact flip_spec|]. split; [|repeat split; vm_compute; reflexivity].
  assert (H : match load_tree copy_sample with Some n => copyableb n && namedb n | None => false end = true) by (vm_compute; reflexivity).
  destruct (load_tree copy_sample) as [n|]; [|discriminate H]. apply andb_true_iff in H. destruct H as [H1 H2].
  exists n. split; [reflexivity|]. split; [apply copyableb_ok; exact H1|apply namedb_ok; exact H2].
Qed.

(** the keys of a condition are printed in another order than they were written *)
Example C60_reprinted_case :
  let v := GMapS [("method", GStr "EQ"); ("value", GStr "x"); ("attribute", GStr "domain")] in
  numberless v /\ json_marshal RefLib v = Some (quotes "{'attribute':'domain','method':'EQ','value':'x'}") /\
  exists n, reads RefLib "" v n /\ single v /\ listed RefLib n.
Proof.
  cbv zeta. split; [repeat (constructor; simpl; auto); intuition discriminate|]. split; [vm_compute; reflexivity|].
  assert (H : match fst (parse_conditions_tree RefLib in_order (GMapS [("method", GStr "EQ"); ("value", GStr "x"); ("attribute", GStr "domain")]) 0) with Ok n => copyableb n | _ => false end = true)
    by (vm_compute; reflexivity).
  destruct (parse_conditions_tree RefLib in_order _ 0) as [[n| |] t] eqn:E; try discriminate H. exists n.
  split; [|split; [|apply copyable_listed, copyableb_ok; exact H]].
  - apply (grammar_sound RefLib in_order _ 0 n t in_order_fair); [|exact E]. repeat (constructor; simpl; auto); intuition discriminate.
  - apply sg_mapS; [repeat (constructor; [constructor|]); constructor|]. intros k x HI HK. exfalso. simpl in HI, HK. intuition congruence.
Qed.

(** bytes that are no document, and a stored document on which loading panics *)
Definition c60_outcome (data : string) : nat := match fst (unmarshal_bson_tree RefLib in_order flip_unmarshal data 0) with Ok _ => 0 | Err => 1 | Panic => 2 end.
Example C60_unreadable_case : map c60_outcome ["junk"; quotes "{'attribute': 1, 'method': 'EX', 'value': ''}"; quotes "{'attribute': 'domain', 'method': 'EQ', 'value': 'x'}"] = [1; 2; 0]%nat.
Proof. vm_compute. reflexivity. Qed.
