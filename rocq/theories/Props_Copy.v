(** C25, C47, C48: JSON texts and the copy of a rule. *)
From Coq Require Import List String Ascii Bool Arith ZArith Permutation.
From Verif Require Import Base GoStr GoFloat Types Json StrUtils Validate Prepare Parse Marshal Lifecycle Spec_Tree Spec_Glob Spec_Json Json_proofs
  Print_proofs Spec_Load Decode_proofs Spec_Copy Copy_proofs RefLib RefLib_facts Samples.
Import ListNotations.
Open Scope string_scope.

(** ** C47 *)
(** [numberless], [key_order] (Spec_Json) *)
Theorem C47_round_trip : forall L v, numberless v ->
  exists v' s, json_marshal L v = Some s /\ json_parse L s = Some v' /\ key_order v v'.
Proof. exact print_parse. Qed.
Print Assumptions C47_round_trip.

Example C47_case :
  let v := GMapS [("b", GArr [GNil; GBool true; GStr (quotes "a'\<")]); ("a", GMapS []); (quotes "'", GArr [])] in
  numberless v /\
  json_marshal RefLib v = Some (quotes "{'\'':[],'a':{},'b':[null,true,'a\'\\\u003c']}") /\
  json_parse RefLib (quotes "{'\'':[],'a':{},'b':[null,true,'a\'\\\u003c']}") =
    Some (GMapS [(quotes "'", GArr []); ("a", GMapS []); ("b", GArr [GNil; GBool true; GStr (quotes "a'\<")])]).
Proof.
  cbv zeta. split; [|split; vm_compute; reflexivity].
  repeat (constructor; simpl; auto); intuition discriminate.
Qed.

(** ** C48 *)
(** [document] (Spec_Json): the grammar of RFC 8259 and the value of each text *)
Theorem C48_decoder : forall L s v, json_parse L s = Some v <-> document L v s.
Proof. exact parse_iff. Qed.
Print Assumptions C48_decoder.
(** every map of a decoded value has each key once *)
Theorem C48_values : forall L s v, json_parse L s = Some v -> go_value v.
Proof. exact parsed_go_value. Qed.
Print Assumptions C48_values.

(** accepted and rejected texts *)
Definition accepts (s : string) : bool := match json_parse RefLib (quotes s) with Some _ => true | None => false end.
Example C48_case :
  forallb accepts ["null"; " { 'a' : [ 1 , -0.5e+2 , 'xé\n' ] } "; "{'a':1,'a':2}"; "[]"; "0"; "''"] = true /\
  existsb accepts [""; "{"; "[1,]"; "01"; "1."; "'a"; "{'a'}"; "nul"; "[1 2]"; "'\x'"; "{} {}"; "+1"; "-"; "1e"] = false /\
  json_parse RefLib (quotes "{'a':true,'b':null,'a':false}") = Some (GMapS [("a", GBool false); ("b", GNil)]).
Proof. repeat split; vm_compute; reflexivity. Qed.
(** escaped code units: a pair is one character of four bytes, any other half of a pair is U+FFFD *)
Example C48_units :
  let four := String "240" (String "159" (String "152" (String "128" ""))) in
  let lost := String "239" (String "191" (String "189" "")) in
  let e := String bslash "u" in
  map (fun s => json_parse RefLib (quotes ("'" ++ s ++ "'")))
    [e ++ "d83d" ++ e ++ "de00"; e ++ "de00" ++ e ++ "D83D"; e ++ "d83d" ++ e ++ "d83d" ++ e ++ "de00"; e ++ "d83dx"; e ++ "d83d" ++ e ++ "00e9";
     e ++ "d83d" ++ e ++ "de0"] =
    [Some (GStr four); Some (GStr (lost ++ lost)); Some (GStr (lost ++ four)); Some (GStr (lost ++ "x"));
     Some (GStr (lost ++ String "195" (String "169" ""))); None].
Proof. vm_compute. reflexivity. Qed.

(** ** C25 *)
(** [copyable] (Spec_Copy) *)
Theorem C25_tree : forall L ord ord' v t n t', fair ord -> fair ord' -> go_value v ->
  parse_conditions_tree L ord v t = (Ok n, t') -> copyable L n ->
  forall u, exists u', copy_tree L ord' (Some n) u = (Ok (Some n), u').
Proof.
  intros L ord ord' v t n t' HF HF' HG HP HC. exact (copy_faithful L ord' n HF' HC (Load_proofs.tree_made L ord HF v t n t' HG HP)).
Qed.
Print Assumptions C25_tree.

(** A rule without derived fields whose tree, if any, was loaded and is copyable. *)
Theorem C25_rule : forall L ord (r : rule L), fair ord -> underived L r ->
  (forall n, ru_tree r = Some n -> copyable L n /\ exists ord' v u u', fair ord' /\ go_value v /\ parse_conditions_tree L ord' v u = (Ok n, u')) ->
  forall t, exists t', copy_rule L ord r t = (Ok r, t').
Proof.
  intros L ord r HF HU HT. apply rule_copied; auto. unfold faithful_tree. destruct (ru_tree r); auto.
Qed.
Print Assumptions C25_rule.

(** preparing the copy is preparing the rule *)
Theorem C25_preparation : forall L ord p (r : rule L), fair ord -> underived L r ->
  (forall n, ru_tree r = Some n -> copyable L n /\ exists ord' v u u', fair ord' /\ go_value v /\ parse_conditions_tree L ord' v u = (Ok n, u')) ->
  forall t,
  fst (fst (set_predefined L ord p (load_rule L r) t)) = match prepare_rule L p r with Ok _ => Ok tt | Err => Err | Panic => Panic end /\
  forall c, prepare_rule L p r = Ok c -> rs_prepared (snd (fst (set_predefined L ord p (load_rule L r) t))) = Some c.
Proof.
  intros L ord p r HF HU HT. apply prepared_copy; auto. unfold faithful_tree. destruct (ru_tree r); auto.
Qed.
Print Assumptions C25_preparation.

(** decision procedure for the examples *)
Fixpoint all_charsb (f : ascii -> bool) (s : string) : bool := match s with EmptyString => true | String c r => f c && all_charsb f r end.
Definition printableb : string -> bool := all_charsb (fun c => (32 <=? nat_of_ascii c)%nat).
Definition unescapedb : string -> bool := all_charsb (fun c => (32 <=? nat_of_ascii c)%nat && negb (Ascii.eqb c dq) && negb (Ascii.eqb c bslash)).
Fixpoint sorted_keysb (l : list (string * string)) : bool :=
  match l with a :: ((b :: _) as l') => String.ltb (fst a) (fst b) && sorted_keysb l' | _ => true end.
Definition listedb (m : option (list (string * string))) : bool := match m with Some l => sorted_keysb l | None => true end.
Fixpoint copyableb (n : node RefLib) : bool :=
  match n with
  | NAnd ns | NOr ns => match ns with [] => false | _ => forallb copyableb ns end
  | NNot n => copyableb n
  | NQuant _ a n => unescapedb (a_orig a) && listedb (r_orig (a_ret a)) && copyableb n
  | NCond c => printableb (c_attr c) && printableb (c_value c) && listedb (r_orig (c_ret c))
  | _ => false
  end.
Lemma all_charsb_ok (f : ascii -> bool) (Q : ascii -> Prop) s : (forall c, f c = true -> Q c) -> all_charsb f s = true -> all_chars Q s.
Proof. intro H. induction s; simpl; auto. rewrite andb_true_iff. intros [H1 H2]. split; auto. Qed.
Lemma printableb_ok s : printableb s = true -> printable s.
Proof. apply all_charsb_ok. intro c. apply Nat.leb_le. Qed.
Lemma unescapedb_ok s : unescapedb s = true -> unescaped s.
Proof.
  apply all_charsb_ok. intro c. rewrite !andb_true_iff, !negb_true_iff, Nat.leb_le. intros [[H1 H2] H3].
  apply Ascii.eqb_neq in H2, H3. auto.
Qed.
Lemma listedb_ok m : listedb m = true -> listed_by_key m.
Proof.
  destruct m as [l|]; simpl; auto. induction l as [|a [|b l] IH]; intro H; try constructor; cbn [sorted_keysb] in H; apply andb_true_iff in H; destruct H; auto.
Qed.
Lemma copyableb_ok n : copyableb n = true -> copyable RefLib n.
Proof.
  induction n as [ns IH|ns IH|n IH|q a n IH| | |c|] using (Tree_proofs.node_ind' RefLib); cbn [copyableb]; intro H; try discriminate.
  - destruct ns as [|x ns]; [discriminate|]. apply cp_and; [discriminate|]. rewrite forallb_forall in H. rewrite Forall_forall in *. auto.
  - destruct ns as [|x ns]; [discriminate|]. apply cp_or; [discriminate|]. rewrite forallb_forall in H. rewrite Forall_forall in *. auto.
  - apply cp_not. auto.
  - apply andb_true_iff in H. destruct H as [H H3]. apply andb_true_iff in H. destruct H as [H1 H2].
    apply cp_quant; [apply unescapedb_ok|apply listedb_ok|]; auto.
  - apply andb_true_iff in H. destruct H as [H H3]. apply andb_true_iff in H. destruct H as [H1 H2].
    apply cp_cond; [apply printableb_ok|apply printableb_ok|apply listedb_ok]; auto.
Qed.

(** the conditions of a tree: attribute, method and value; returned paths; parent paths *)
Fixpoint contents (n : node RefLib) : list string :=
  match n with
  | NAnd ns => ("AND" :: flat_map contents ns)%list
  | NOr ns => ("OR" :: flat_map contents ns)%list
  | NNot n => ("NOT" :: contents n)%list
  | NQuant QAny a n => ("ANY" :: a_orig a :: flat_map (fun e => [fst e; snd e]) (the [] (r_orig (a_ret a))) ++ contents n)%list
  | NQuant QAll a n => ("ALL" :: a_orig a :: flat_map (fun e => [fst e; snd e]) (the [] (r_orig (a_ret a))) ++ contents n)%list
  | NCond c => ([c_attr c; c_method c; c_value c] ++ flat_map (fun e => [fst e; snd e]) (the [] (r_orig (c_ret c))))%list
  | _ => []
  end.
Inductive copied := Same (l : list string) | Other (l l' : list string) | Fails (l : list string) | NotLoaded.
(** what the copy of the tree in a text holds *)
Definition copy_of (s : string) : copied :=
  match load_tree s with
  | Some n => match fst (copy_tree RefLib in_order (Some n) 0) with
              | Ok (Some n') => if list_eq_dec string_dec (contents n) (contents n') then Same (contents n) else Other (contents n) (contents n')
              | _ => Fails (contents n)
              end
  | None => NotLoaded
  end.
Definition copy_sample : string :=
  "{'AND':[{'NOT':{'condition':{'attribute':'domain','method':'EQ','value':'a\\b\'c'}}},{'ANY':{'parentJsonpathAttribute':'jsonpath:$.a[:]','returnValueJsonpath':{'k':'jsonpath:$RELATIVE.x','l':'jsonpath:$RELATIVE.\'y\''},'condition':{'OR':[{'condition':{'attribute':'jsonpath:$RELATIVE.b','method':'EX','value':''}}]}}}]}".
Example C25_case :
  (exists n, load_tree copy_sample = Some n /\ copyable RefLib n) /\
  copy_of copy_sample = Same ["AND"; "NOT"; "domain"; "EQ"; quotes "a\b'c"; "ANY"; "jsonpath:$.a[:]"; "k"; "jsonpath:$RELATIVE.x";
    "l"; quotes "jsonpath:$RELATIVE.'y'"; "OR"; "jsonpath:$RELATIVE.b"; "EX"; ""].
Proof.
  split; [|vm_compute; reflexivity].
  assert (H : match load_tree copy_sample with Some n => copyableb n | None => false end = true) by (vm_compute; reflexivity).
  destruct (load_tree copy_sample) as [n|]; [|discriminate]. exists n. split; auto. apply copyableb_ok. exact H.
Qed.

(** the exclusions are needed: empty AND, control characters, quotation marks in a parent path *)
Theorem C25_excluded_refuted :
  copy_of "{'AND':[]}" = Fails ["AND"] /\
  copy_of "{'attribute':'domain','method':'EQ','value':'a\nb'}" = Fails ["domain"; "EQ"; String "a" (String "010" "b")] /\
  copy_of "{'ANY':{'parentJsonpathAttribute':'jsonpath:$.a\',\'parentJsonpathAttribute\':\'jsonpath:$.b','condition':{'attribute':'jsonpath:$RELATIVE.x','method':'EQ','value':'1'}}}" =
    Other ["ANY"; quotes "jsonpath:$.a','parentJsonpathAttribute':'jsonpath:$.b"; "jsonpath:$RELATIVE.x"; "EQ"; "1"]
          ["ANY"; "jsonpath:$.b"; "jsonpath:$RELATIVE.x"; "EQ"; "1"].
Proof. repeat split; vm_compute; reflexivity. Qed.
Print Assumptions C25_excluded_refuted.
