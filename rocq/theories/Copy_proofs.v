(** Proofs about the copy of a rule made by serialising and parsing. *)
From Coq Require Import List String Ascii Bool Arith ZArith Permutation Lia.
From Verif Require Import Base GoStr GoStr_facts GoFloat Types Json StrUtils Validate Prepare Parse Marshal Lifecycle Spec_Tree Tree_proofs Match_proofs
  Spec_Glob Spec_Validate Validate_proofs Spec_Json Json_proofs Spec_Load Lifecycle_proofs Load_proofs Load_order Print_proofs Spec_Copy.
Import ListNotations.
Open Scope string_scope.
Local Arguments String.prefix : simpl never.

(** ** Sorted keys are distinct *)
Lemma ltb_trans a : forall b c, String.ltb a b = true -> String.ltb b c = true -> String.ltb a c = true.
Proof.
  unfold String.ltb. induction a as [|x a IH]; intros [|y b] [|z c] H1 H2; try discriminate; auto.
  cbn [String.compare] in *. unfold Ascii.compare in *.
  destruct (N.compare_spec (N_of_ascii x) (N_of_ascii y)) as [E1|E1|E1]; [| |discriminate];
    destruct (N.compare_spec (N_of_ascii y) (N_of_ascii z)) as [E2|E2|E2]; try discriminate;
    destruct (N.compare_spec (N_of_ascii x) (N_of_ascii z)) as [E3|E3|E3]; auto; try lia.
  apply (IH b c); auto.
Qed.
Lemma ltb_irrefl a : String.ltb a a = false.
Proof.
  unfold String.ltb. induction a as [|x a IH]; [auto|]. cbn [String.compare]. unfold Ascii.compare. rewrite N.compare_refl. auto.
Qed.
Lemma sorted_above {A} (e : string * A) l : sorted_keys (e :: l) -> forall k, In k (keys l) -> String.ltb (fst e) k = true.
Proof.
  revert e. induction l as [|b l IH]; intros e H k HI; [destruct HI|]. inversion H; subst. destruct HI as [<-|HI]; auto.
  eapply ltb_trans; eauto.
Qed.
Lemma sorted_distinct {A} (l : list (string * A)) : sorted_keys l -> NoDup (keys l).
Proof.
  induction l as [|e l IH]; intro H; [constructor|]. unfold keys in *. simpl. constructor.
  - intro HI. pose proof (sorted_above e l H _ HI) as E. rewrite ltb_irrefl in E. discriminate.
  - apply IH. inversion H; subst; [constructor|auto].
Qed.

(** ** Escaping *)
Lemma replace_char c k new s : replace_all (String c s) (String k "") new = (if Ascii.eqb k c then new else String c "") ++ replace_all s (String k "") new.
Proof.
  unfold replace_all. cbn [replace_all_from]. 
  change (String.prefix (String k "") (String c s)) with (if ascii_dec k c then String.prefix "" s else false). destruct (ascii_dec k c) as [->|E].
  - rewrite Ascii.eqb_refl. destruct s; reflexivity.
  - apply Ascii.eqb_neq in E. rewrite E. reflexivity.
Qed.
Lemma escape_text_chars x : printable x -> chars x (escape_text x).
Proof.
  unfold escape_text. induction x as [|c x IH]; intro H; [constructor|]. destruct H as [H1 H2]. specialize (IH H2).
  unfold bss, dqs in *. rewrite replace_char. destruct (Ascii.eqb bslash c) eqn:E1.
  - apply Ascii.eqb_eq in E1. subst c. simpl append. rewrite !replace_char. change (Ascii.eqb dq bslash) with false. simpl append.
    apply (cs_escape bslash bslash); simpl; auto.
  - simpl append. rewrite replace_char. destruct (Ascii.eqb dq c) eqn:E2.
    + apply Ascii.eqb_eq in E2. subst c. simpl append. apply (cs_escape dq dq); simpl; auto.
    + simpl append. apply Ascii.eqb_neq in E1, E2. apply cs_plain; auto.
Qed.
Lemma unescaped_chars x : unescaped x -> chars x x.
Proof. induction x as [|c x IH]; intro H; [constructor|]. destruct H as [(H1 & H2 & H3) H4]. apply cs_plain; auto. Qed.

(** ** The value a tree is serialised to *)
Section WithLib.
Variable L : Lib.

Definition strings_value (m : list (string * string)) : iface := GMapS (map (fun kv => (fst kv, GStr (snd kv))) m).
Definition returns_entry (m : option (list (string * string))) : list (string * iface) :=
  match m with Some m => [("returnValueJsonpath", strings_value m)] | None => [] end.
Fixpoint entry (n : node L) : string * iface :=
  match n with
  | NAnd ns => ("AND", GArr (map (fun n => GMapS [entry n]) ns))
  | NOr ns => ("OR", GArr (map (fun n => GMapS [entry n]) ns))
  | NNot n => ("NOT", GMapS [entry n])
  | NQuant q a n => (match q with QAny => "ANY" | QAll => "ALL" end,
      GMapS (("parentJsonpathAttribute", GStr (a_orig a)) :: returns_entry (r_orig (a_ret a)) ++ [("condition", GMapS [entry n])])%list)
  | NCond c => ("condition", GMapS ([("attribute", GStr (c_attr c)); ("method", GStr (c_method c)); ("value", GStr (c_value c))] ++ returns_entry (r_orig (c_ret c)))%list)
  | _ => ("", GNil)
  end.

(** ** Its text *)
Lemma plain_chars x : unescaped x -> chars x x.
Proof. apply unescaped_chars. Qed.
Ltac word := solve [repeat (apply cs_plain; [vm_compute; lia|discriminate|discriminate|]); apply cs_end].

Lemma strings_text m : sorted_keys m -> text L (strings_value m) (string_map_json L m).
Proof.
  intro HS. unfold string_map_json, strings_value.
  assert (E : all_some (map (fun kv => option_map (pair (fst kv)) (json_marshal L (snd kv))) (map (fun kv => (fst kv, GStr (snd kv))) m)) =
    Some (map (fun kv => (fst kv, json_string (snd kv))) m)).
  { clear HS. induction m as [|kv m IH]; [auto|]. simpl. rewrite IH. auto. }
  cbn [json_marshal]. rewrite E. cbn [option_map].
  assert (HS2 : sorted_keys (map (fun kv => (fst kv, json_string (snd kv))) m)).
  { clear E. induction m as [|a [|b m] IH]; simpl; [constructor|constructor|]. inversion HS; subst. constructor; auto. }
  rewrite (sorted_sort _ HS2). apply object_text.
  - unfold keys. rewrite map_map. simpl. apply sorted_distinct; auto.
  - clear. induction m as [|kv m IH]; simpl; constructor; auto. exists (json_escape (fst kv)), (json_string (snd kv)). simpl.
    split; [|split; [apply escape_chars|apply string_text]]. unfold member, json_string. rewrite !append_assoc. auto.
Qed.

Lemma one_entry k v s : unescaped k -> text L v s -> text L (GMapS [(k, v)]) ("{" ++ quoted k ++ ":" ++ s ++ "}").
Proof.
  intros HK HT. pose proof (object_text L [(k, v)] [member k s]) as H. unfold member, quoted in *. cbn [join] in H. rewrite !append_assoc in *.
  apply H.
  - constructor; [intros []|constructor].
  - constructor; [|constructor]. exists k, s. split; [rewrite ?append_assoc; reflexivity|]. split; [apply unescaped_chars; auto|auto].
Qed.
Ltac plain_key := repeat split; try discriminate; vm_compute; lia.

Definition inner_text (es : list (string * iface)) (s : string) : Prop :=
  Forall2 (fun kv s => exists ks t, s = member ks t /\ chars (fst kv) ks /\ text L (snd kv) t) es [s].

Lemma method_plain c c' : validate_condition L c = Ok c' -> unescaped (c_method c).
Proof.
  unfold validate_condition. intro H. apply rbind_ok in H. destruct H as (u & _ & H). apply rbind_ok in H. destruct H as (u' & H & _).
  unfold validate_method in H. destruct (contains_string supported_methods (c_method c)) eqn:E; [|discriminate]. clear H.
  unfold contains_string in E. apply existsb_exists in E. destruct E as (x & E & EX). apply String.eqb_eq in EX. rewrite EX. clear EX. simpl in E. repeat (destruct E as [<-|E]; [plain_key|]). destruct E.
Qed.

Lemma checked_ok v s : text L v s -> checked L s = Ok s.
Proof.
  intro H. unfold checked. rewrite (document_parses L v s); [reflexivity|]. exists "", s, "". repeat split; auto. simpl. rewrite append_nil_r. auto.
Qed.

Lemma cond_form cn c : validate_condition L (condition_from_node L cn) = Ok c ->
  c_attr c = cn_attr cn /\ c_method c = cn_method cn /\ c_value c = cn_value cn /\ c_orig c = no_orig /\ c_ret c = c_ret (condition_from_node L cn) /\
  r_orig (c_ret c) = cn_ret cn /\ unescaped (c_method c).
Proof.
  intro HV. pose proof (accepted_fields L _ _ HV) as (E1 & E2 & E3 & E4 & E5 & E6 & E7 & E8).
  split; [rewrite E1; reflexivity|]. split; [rewrite E2; reflexivity|]. split; [rewrite E3; reflexivity|]. split; [rewrite E8; reflexivity|].
  split; [rewrite E4; reflexivity|]. split; [rewrite E4; unfold condition_from_node; destruct (cn_ret cn); reflexivity|].
  rewrite E2. eapply method_plain; eauto.
Qed.

Lemma original_empty x : original_or "" x = x.
Proof. reflexivity. Qed.
Lemma original_same x y : x <> "" -> original_or x y = x.
Proof. intro H. unfold original_or. apply String.eqb_neq in H. rewrite H. auto. Qed.

Lemma valid_nonempty s : valid_parent s = true -> s <> "".
Proof. intros H ->. discriminate. Qed.

Lemma rseq_forall2 (ns : list (node L)) : Forall (fun n => exists s, node_json L n = Ok s /\ text L (GMapS [entry n]) s) ns ->
  exists ss, rseq (map (node_json L) ns) = Ok ss /\ Forall2 (text L) (map (fun n => GMapS [entry n]) ns) ss.
Proof.
  induction 1 as [|n ns (s & E & HT) HF (ss & ES & IH)]; [exists []; split; [reflexivity|constructor]|]. exists (s :: ss). simpl. rewrite E. simpl. rewrite ES. split; [auto|constructor; auto].
Qed.

Lemma node_text n : copyable L n -> made L n -> exists s, node_json L n = Ok s /\ text L (GMapS [entry n]) s.
Proof.
  induction n as [ns IH|ns IH|n IH|q a n IH| | |c|] using node_ind'; intros HC HM; inversion HC as [? HE HF|? HE HF|? HF|? ? ? HP HR HF|? HA HB HR]; subst.
  - inversion HM as [? HG| | | |]; subst. destruct (rseq_forall2 ns) as (ss & ES & HS).
    { clear HE HC HM. induction IH; inversion HF; inversion HG; subst; constructor; auto. }
    exists ("{" ++ quoted "AND" ++ ":[" ++ join "," ss ++ "]}"). split.
    + destruct ns; [congruence|]. cbn [node_json]. rewrite ES. reflexivity.
    + pose proof (one_entry "AND" _ _ ltac:(plain_key) (array_text L _ _ HS)) as H. cbn [entry]. rewrite !append_assoc in *. exact H.
  - inversion HM as [|? HG| | |]; subst. destruct (rseq_forall2 ns) as (ss & ES & HS).
    { clear HE HC HM. induction IH; inversion HF; inversion HG; subst; constructor; auto. }
    exists ("{" ++ quoted "OR" ++ ":[" ++ join "," ss ++ "]}"). split.
    + destruct ns; [congruence|]. cbn [node_json]. rewrite ES. reflexivity.
    + pose proof (one_entry "OR" _ _ ltac:(plain_key) (array_text L _ _ HS)) as H. cbn [entry]. rewrite !append_assoc in *. exact H.
  - inversion HM as [| |? HG| |]; subst. destruct HG as [->|HG]; [inversion HF|]. destruct (IH HF HG) as (s & ES & HS).
    exists ("{" ++ quoted "NOT" ++ ":" ++ s ++ "}"). split.
    + assert (HN : n <> NNil) by (intros ->; inversion HF). cbn [node_json]. rewrite ES. destruct n; try reflexivity. congruence.
    + cbn [entry]. apply one_entry; [plain_key|auto].
  - inversion HM as [| | |? p r ? HI HV HNE HRR|]; subst. destruct HI as [->|HI]; [inversion HF|]. destruct (IH HF HI) as (s & ES & HS).
    cbn [node_json]. rewrite ES. cbn [rbind].
    assert (HT : text L (GMapS [entry (NQuant q (mkAA (replace_all p "jsonpath:" "") [] p r []) n)]) (aa_json L q (mkAA (replace_all p "jsonpath:" "") [] p r []) s)).
    { unfold aa_json. cbn [a_orig a_parent a_ret entry] in *. rewrite (original_same p _ (valid_nonempty p HV)).
      set (name := match q with QAny => "ANY" | QAll => "ALL" end). assert (HNm : unescaped name) by (destruct q; plain_key).
      assert (E : exists body, text L (GMapS (("parentJsonpathAttribute", GStr p) :: returns_entry (r_orig r) ++ [("condition", GMapS [entry n])])%list) body /\
        "{" ++ quoted name ++ ":{" ++ quoted "parentJsonpathAttribute" ++ ":" ++ quoted p ++ "," ++
          match orig_ret L r with None | Some [] => "" | Some m => quoted "returnValueJsonpath" ++ ":" ++ string_map_json L m ++ "," end ++
          quoted "condition" ++ ":" ++ s ++ "}}" = "{" ++ quoted name ++ ":" ++ body ++ "}").
      { assert (HPT : text L (GStr p) (quoted p)) by (apply tx_string, unescaped_chars; auto).
        destruct HRR as [->|(m & HNm2 & -> & HFm)].
        - pose proof (object_text L [("parentJsonpathAttribute", GStr p); ("condition", GMapS [entry n])]
            [member "parentJsonpathAttribute" (quoted p); member "condition" s]) as H.
          eexists. split; [apply H|].
          + unfold keys; simpl. constructor; [intros [|[]]; discriminate|constructor; [intros []|constructor]].
          + constructor; [|constructor; [|constructor]]; eexists; eexists; (split; [reflexivity|]); split; auto; word.
          + unfold member, quoted. cbn [join orig_ret r_orig no_ret r_paths]. rewrite !append_assoc. reflexivity.
        - cbn [set_return_values r_orig] in HR. cbn [listed_by_key] in HR.
          pose proof (object_text L [("parentJsonpathAttribute", GStr p); ("returnValueJsonpath", strings_value m); ("condition", GMapS [entry n])]
            [member "parentJsonpathAttribute" (quoted p); member "returnValueJsonpath" (string_map_json L m); member "condition" s]) as H.
          eexists. split; [apply H|].
          + unfold keys; simpl. constructor; [intros [|[|[]]]; discriminate|constructor; [intros [|[]]; discriminate|constructor; [intros []|constructor]]].
          + constructor; [|constructor; [|constructor; [|constructor]]]; eexists; eexists; (split; [reflexivity|]); split; auto; try word. apply strings_text; auto.
          + destruct m as [|e m]; [congruence|]. unfold orig_ret, set_return_values. cbn [r_orig]. unfold member, quoted. cbn [join]. rewrite !append_assoc. reflexivity. }
      destruct E as (body & HB & ->). apply one_entry; auto. }
    eexists. split; [eapply checked_ok; exact HT|exact HT].
  - inversion HM as [| | | |cn ? HDR HV]; subst. destruct (cond_form cn c HV) as (E1 & E2 & E3 & E4 & E5 & E6 & E7).
    assert (HT : text L (GMapS [entry (NCond c)]) (cond_json L c)).
    { unfold cond_json. rewrite E4. cbn [og_attr og_method og_value no_orig]. rewrite !original_empty. cbn [entry].
      assert (HOR : orig_ret L (c_ret c) = r_orig (c_ret c)).
      { rewrite E5. unfold orig_ret, condition_from_node. destruct (cn_ret cn) as [[|? ?]|]; reflexivity. }
      rewrite HOR.
      assert (HB1 : chars (c_attr c) (escape_text (c_attr c))) by (apply escape_text_chars; auto).
      assert (HB2 : chars (c_value c) (escape_text (c_value c))) by (apply escape_text_chars; auto).
      assert (HB3 : chars (c_method c) (c_method c)) by (apply unescaped_chars; auto).
      destruct (r_orig (c_ret c)) as [m|].
      - pose proof (object_text L [("attribute", GStr (c_attr c)); ("method", GStr (c_method c)); ("value", GStr (c_value c)); ("returnValueJsonpath", strings_value m)]
          [member "attribute" (quoted (escape_text (c_attr c))); member "method" (quoted (c_method c)); member "value" (quoted (escape_text (c_value c)));
           member "returnValueJsonpath" (string_map_json L m)]) as H.
        match type of H with _ -> _ -> ?T => assert (HH : T) end.
        { apply H.
          - unfold keys; simpl. repeat (constructor; [simpl; intuition discriminate|]). constructor.
          - repeat constructor; eexists; eexists; (split; [reflexivity|]); split; try word; try (apply tx_string; assumption). apply strings_text; auto. }
        apply (one_entry "condition") in HH; [|plain_key]. unfold member, quoted in *. cbn [join] in HH. cbn [returns_entry app].
        rewrite !append_assoc in *. exact HH.
      - pose proof (object_text L [("attribute", GStr (c_attr c)); ("method", GStr (c_method c)); ("value", GStr (c_value c))]
          [member "attribute" (quoted (escape_text (c_attr c))); member "method" (quoted (c_method c)); member "value" (quoted (escape_text (c_value c)))]) as H.
        match type of H with _ -> _ -> ?T => assert (HH : T) end.
        { apply H.
          - unfold keys; simpl. repeat (constructor; [simpl; intuition discriminate|]). constructor.
          - repeat constructor; eexists; eexists; (split; [reflexivity|]); split; try word; try (apply tx_string; assumption). }
        apply (one_entry "condition") in HH; [|plain_key]. unfold member, quoted in *. cbn [join] in HH. cbn [returns_entry app].
        rewrite !append_assoc in *. exact HH. }
    cbn [node_json]. eexists. split; [eapply checked_ok; exact HT|exact HT].
Qed.

(** ** Reading it back *)
Lemma pbind_step {A B} (x : P A) (f : A -> P B) t a t1 r : x t = (Ok a, t1) -> f a t1 = r -> pbind x f t = r.
Proof. intros E <-. unfold pbind. rewrite E. auto. Qed.
Definition as_listed : order := fun _ l => l.
Lemma as_listed_fair : fair as_listed.
Proof. intros t l. apply Permutation_refl. Qed.

Lemma strings_back m : strings_of_map (map (fun kv => (fst kv, GStr (snd kv))) m) = Ok m.
Proof. unfold strings_of_map. induction m as [|(k, v) m IH]; simpl; [auto|]. rewrite IH. auto. Qed.
Lemma checks_back m : Forall (fun e => starts "jsonpath:$RELATIVE" (snd e)) m -> NoDup (keys m) ->
  forall ks, incl ks (keys m) -> check_return_values (map (fun kv => (fst kv, GStr (snd kv))) m) ks = Ok tt.
Proof.
  intros HF HN ks. induction ks as [|k ks IH]; intro HI; [auto|]. cbn [check_return_values].
  assert (HK : In k (keys m)) by (apply HI; left; auto). apply in_map_iff in HK. destruct HK as ((k', x) & E & HX). simpl in E. subst k'.
  assert (EA : assoc k (map (fun kv => (fst kv, GStr (snd kv))) m) = Some (GStr x)).
  { apply in_assoc; [unfold keys; rewrite map_map; exact HN|]. apply in_map_iff. exists (k, x). auto. }
  rewrite EA. cbn [as_string rbind]. rewrite Forall_forall in HF. specialize (HF _ HX). cbn [snd] in HF. apply starts_iff in HF. rewrite HF.
  apply IH. intros y HY. apply HI. right. auto.
Qed.

Lemma one_key_map (e : string * iface) p t : In (fst e) ["AND"; "OR"; "NOT"; "ANY"; "ALL"; "condition"] -> In p [""; "condition"; "conditionsTree"] ->
  interpret L as_listed (GMapS [e]) p t = interpret L as_listed (snd e) (fst e) t.
Proof.
  destruct e as [k v]. cbn [interpret map]. cbn [fst snd]. intros HK HP.
  repeat (destruct HK as [<-|HK]; [repeat (destruct HP as [<-|HP]; [reflexivity|]); destruct HP|]). destruct HK.
Qed.
Lemma one_key_not (e : string * iface) t : In (fst e) ["AND"; "OR"; "NOT"; "ANY"; "ALL"; "condition"] ->
  interpret L as_listed (GMapS [e]) "NOT" t = (pdo n <- interpret L as_listed (snd e) (fst e); pret (Ok (NNot n))) t.
Proof.
  destruct e as [k v]. cbn [interpret map]. cbn [fst snd]. intros HK.
  repeat (destruct HK as [<-|HK]; [reflexivity|]). destruct HK.
Qed.
Lemma entry_key n : copyable L n -> In (fst (entry n)) ["AND"; "OR"; "NOT"; "ANY"; "ALL"; "condition"].
Proof. intro H. destruct H; simpl; auto. destruct q; auto 10. auto 10. Qed.

Lemma pseq_entries ns : Forall (fun n => forall t, exists t', interpret L as_listed (GMapS [entry n]) "" t = (Ok n, t')) ns ->
  forall t, exists t', pseq (map (fun x => interpret L as_listed x "") (map (fun n => GMapS [entry n]) ns)) t = (Ok ns, t').
Proof.
  induction 1 as [|n ns HN HF IH]; intro t; [exists t; reflexivity|]. destruct (HN t) as [t1 E1]. destruct (IH t1) as [t2 E2]. exists t2.
  cbn [map pseq]. unfold pbind at 1. rewrite E1. unfold pbind. rewrite E2. reflexivity.
Qed.

Lemma entry_back n : copyable L n -> made L n -> forall t, exists t', interpret L as_listed (snd (entry n)) (fst (entry n)) t = (Ok n, t').
Proof.
  induction n as [ns IH|ns IH|n IH|q a n IH| | |c|] using node_ind'; intros HC HM t; inversion HC as [? HE HF|? HE HF|? HF|? ? ? HP HR HF|? HA HB HR]; subst.
  - inversion HM as [? HG| | | |]; subst. destruct (pseq_entries ns) with (t := t) as [t' E].
    { clear HE HC HM. induction IH as [|n ns Hn IH IHns]; inversion HF; inversion HG; subst; constructor; auto. intro t0.
      destruct (Hn ltac:(assumption) ltac:(assumption) t0) as [t' E]. exists t'. rewrite one_key_map; [exact E|apply entry_key; auto|simpl; auto]. }
    exists t'. cbn [entry fst snd interpret]. change (String.eqb "AND" "") with false. cbv iota. unfold handle_array.
    change (is_any "AND" ["AND"; "OR"; "NOT"]) with true. cbv iota. unfold pbind. rewrite E. reflexivity.
  - inversion HM as [|? HG| | |]; subst. destruct (pseq_entries ns) with (t := t) as [t' E].
    { clear HE HC HM. induction IH as [|n ns Hn IH IHns]; inversion HF; inversion HG; subst; constructor; auto. intro t0.
      destruct (Hn ltac:(assumption) ltac:(assumption) t0) as [t' E]. exists t'. rewrite one_key_map; [exact E|apply entry_key; auto|simpl; auto]. }
    exists t'. cbn [entry fst snd interpret]. change (String.eqb "OR" "") with false. cbv iota. unfold handle_array.
    change (is_any "OR" ["AND"; "OR"; "NOT"]) with true. cbv iota. unfold pbind. rewrite E. reflexivity.
  - inversion HM as [| |? HG| |]; subst. destruct HG as [->|HG]; [inversion HF|]. destruct (IH HF HG t) as [t' E].
    exists t'. cbn [entry fst snd]. rewrite one_key_not by (apply entry_key; auto). unfold pbind. rewrite E. reflexivity.
  - inversion HM as [| | |? p r ? HI HV HNE HRR|]; subst. destruct HI as [->|HI]; [inversion HF|].
    assert (HIN : forall t, exists t', interpret L as_listed (GMapS [entry n]) "condition" t = (Ok n, t')).
    { intro t0. destruct (IH HF HI t0) as [t' E]. exists t'. rewrite one_key_map; [exact E|apply entry_key; auto|simpl; auto]. }
    assert (HQ : exists t', any_all_node L as_listed q (map (fun kv => (fst kv, (snd kv, interpret L as_listed (snd kv))))
      (("parentJsonpathAttribute", GStr p) :: returns_entry (r_orig r) ++ [("condition", GMapS [entry n])])%list) t =
      (Ok (NQuant q (mkAA (replace_all p "jsonpath:" "") [] p r []) n), t')).
    { apply String.eqb_neq in HNE. destruct HRR as [->|(m & HNm2 & -> & HFm)].
      - destruct (HIN (S t)) as [t' E]. exists t'. cbn [no_ret r_orig returns_entry app map fst snd]. unfold any_all_node. cbn [List.length].
        change (negb ((2 =? 2) || (2 =? 3))%nat) with false. cbv iota.
        match goal with |- context [negb ?b] => change (negb b) with false end. cbv iota.
        apply pbind_step with (a := ["parentJsonpathAttribute"; "condition"]) (t1 := S t); [reflexivity|].
        apply pbind_step with (a := (mkAA (replace_all p "jsonpath:" "") [] p no_ret [], n)) (t1 := t');
          [|cbn [a_parent]; rewrite HNE; reflexivity].
        cbn [aa_loop assoc]. cbn [String.eqb Ascii.eqb Bool.eqb].
        apply pbind_step with (a := p) (t1 := S t); [reflexivity|]. rewrite HV.
        apply pbind_step with (a := n) (t1 := t'); [exact E|reflexivity].
      - destruct (HIN (S (S t))) as [t' E]. exists t'. cbn [set_return_values r_orig listed_by_key] in HR.
        cbn [set_return_values r_orig returns_entry app map fst snd]. unfold any_all_node. cbn [List.length].
        change (negb ((3 =? 2) || (3 =? 3))%nat) with false. cbv iota.
        match goal with |- context [negb ?b] => change (negb b) with false end. cbv iota.
        apply pbind_step with (a := ["parentJsonpathAttribute"; "returnValueJsonpath"; "condition"]) (t1 := S t); [reflexivity|].
        apply pbind_step with (a := (mkAA (replace_all p "jsonpath:" "") [] p (set_return_values L m) [], n)) (t1 := t');
          [|cbn [a_parent]; rewrite HNE; reflexivity].
        cbn [aa_loop assoc]. cbn [String.eqb Ascii.eqb Bool.eqb].
        apply pbind_step with (a := p) (t1 := S t); [reflexivity|]. rewrite HV.
        assert (ER : aa_return L as_listed (strings_value m) no_ret (S t) = (Ok (set_return_values L m), S (S t))).
        { unfold aa_return, strings_value, pbind, pret, prange, as_listed. rewrite (checks_back m HFm (sorted_distinct m HR)).
          - destruct m as [|e m]; [congruence|]. rewrite strings_back. reflexivity.
          - unfold keys. rewrite map_map. apply incl_refl. }
        apply pbind_step with (a := set_return_values L m) (t1 := S (S t)); [exact ER|].
        apply pbind_step with (a := n) (t1 := t'); [exact E|reflexivity]. }
    destruct HQ as [t' HQ]. exists t'. cbn [entry fst snd a_orig a_ret interpret]. unfold handle_map.
    destruct HRR as [->|(m & HNm2 & -> & HFm)]; destruct q; exact HQ.
  - inversion HM as [| | | |cn ? HDR HV]; subst. destruct (cond_form cn c HV) as (E1 & E2 & E3 & E4 & E5 & E6 & E7).
    exists t. cbn [entry fst snd interpret]. rewrite E1, E2, E3, E6. unfold handle_map.
    assert (ER : node_condition L (plain L (map (fun kv => (fst kv, (snd kv, interpret L as_listed (snd kv))))
      ([("attribute", GStr (cn_attr cn)); ("method", GStr (cn_method cn)); ("value", GStr (cn_value cn))] ++ returns_entry (cn_ret cn))%list)) "condition" = Ok (NCond c)).
    { unfold node_condition. destruct cn as [a1 a2 a3 [m|]].
      - cbn [cn_attr cn_method cn_value cn_ret returns_entry app map plain fst snd]. cbn [read_condition].
        cbn [is_any existsb String.eqb Ascii.eqb Bool.eqb orb rbind as_string go_fmt]. unfold strings_value. rewrite strings_back.
        cbn [rbind read_condition cn_attr cn_method cn_value cn_ret]. rewrite HV. reflexivity.
      - cbn [cn_attr cn_method cn_value cn_ret returns_entry app map plain fst snd]. cbn [read_condition].
        cbn [is_any existsb String.eqb Ascii.eqb Bool.eqb orb rbind as_string go_fmt read_condition cn_attr cn_method cn_value cn_ret]. rewrite HV. reflexivity. }
    destruct (cn_ret cn); cbn [returns_entry app map fst snd] in *; unfold pret; rewrite <- ER; reflexivity.
Qed.

Lemma strings_go_value m : NoDup (keys m) -> go_value (strings_value m).
Proof.
  intro H. apply gv_mapS; [unfold keys; rewrite map_map; exact H|]. clear. induction m; simpl; constructor; auto. constructor.
Qed.
Lemma strings_single m : single (strings_value m).
Proof.
  apply sg_mapS; [induction m; simpl; constructor; auto; constructor|]. intros k x HI _. apply in_map_iff in HI. destruct HI as (e & E & _).
  injection E; intros <- _. split; intros; discriminate.
Qed.
Lemma one_go_value e : go_value (snd e) -> go_value (GMapS [e]).
Proof. intro H. apply gv_mapS; [constructor; [intros []|constructor]|constructor; auto]. Qed.

Lemma entry_value n : copyable L n -> go_value (snd (entry n)).
Proof.
  induction n as [ns IH|ns IH|n IH|q a n IH| | |c|] using node_ind'; intros HC; inversion HC as [? HE HF|? HE HF|? HF|? ? ? HP HR HF|? HA HB HR]; subst; cbn [entry snd].
  - apply gv_arr. clear HE HC. induction IH; inversion HF; subst; simpl; constructor; auto. apply one_go_value; auto.
  - apply gv_arr. clear HE HC. induction IH; inversion HF; subst; simpl; constructor; auto. apply one_go_value; auto.
  - apply one_go_value; auto.
  - apply gv_mapS.
    + destruct (r_orig (a_ret a)); unfold keys; simpl; repeat (constructor; [simpl; intuition discriminate|]); constructor.
    + constructor; [constructor|]. apply Forall_app. split; [|constructor; [apply one_go_value; auto|constructor]].
      destruct (r_orig (a_ret a)); [|constructor]. constructor; [apply strings_go_value, sorted_distinct; auto|constructor].
  - apply gv_mapS.
    + destruct (r_orig (c_ret c)); unfold keys; simpl; repeat (constructor; [simpl; intuition discriminate|]); constructor.
    + repeat (constructor; [constructor|]). destruct (r_orig (c_ret c)); [|constructor].
      constructor; [apply strings_go_value, sorted_distinct; auto|constructor].
Qed.
Lemma one_single e : single (snd e) -> (In (fst e) ["ANY"; "ALL"] -> one_inner (snd e)) -> single (GMapS [e]).
Proof. intros H HO. apply sg_mapS; [constructor; auto|]. intros k x [E|[]] HK. subst e. apply HO. exact HK. Qed.
Lemma not_quant (k : string) : ~ In k ["ANY"; "ALL"] -> forall P : Prop, In k ["ANY"; "ALL"] -> P.
Proof. tauto. Qed.
Lemma entry_single n : copyable L n -> single (snd (entry n)) /\ (In (fst (entry n)) ["ANY"; "ALL"] -> one_inner (snd (entry n))).
Proof.
  induction n as [ns IH|ns IH|n IH|q a n IH| | |c|] using node_ind'; intros HC; inversion HC as [? HE HF|? HE HF|? HF|? ? ? HP HR HF|? HA HB HR]; subst; cbn [entry fst snd].
  - split; [|apply not_quant; simpl; intuition discriminate]. apply sg_arr. clear HE HC. induction IH as [|n ns Hn]; inversion HF; subst; simpl; constructor; auto.
    apply one_single; apply Hn; auto.
  - split; [|apply not_quant; simpl; intuition discriminate]. apply sg_arr. clear HE HC. induction IH as [|n ns Hn]; inversion HF; subst; simpl; constructor; auto.
    apply one_single; apply Hn; auto.
  - split; [|apply not_quant; simpl; intuition discriminate]. apply one_single; apply IH; auto.
  - split.
    + apply sg_mapS.
      * constructor; [constructor|]. apply Forall_app. split; [destruct (r_orig (a_ret a)); [constructor; [apply strings_single|constructor]|constructor]|].
        constructor; [apply one_single; apply IH; auto|constructor].
      * intros k x HI HK. exfalso. destruct (r_orig (a_ret a)); simpl in HI, HK; intuition congruence.
    + intros _. split; [|intros; discriminate]. intros m k k' E HK HK' (H1 & H2) (H3 & H4). injection E; intros <-.
      destruct (r_orig (a_ret a)); simpl in HK, HK'; intuition congruence.
  - split; [|apply not_quant; simpl; intuition discriminate]. apply sg_mapS.
    + repeat (constructor; [constructor|]). destruct (r_orig (c_ret c)); [constructor; [apply strings_single|constructor]|constructor].
    + intros k x HI HK. exfalso. destruct (r_orig (c_ret c)); simpl in HI, HK; intuition congruence.
Qed.

Theorem copy_faithful ord n : fair ord -> copyable L n -> made L n -> forall t, exists t', copy_tree L ord (Some n) t = (Ok (Some n), t').
Proof.
  intros Hfair HC HM t. destruct (node_text n HC HM) as (s & ES & HS).
  assert (HT : text L (GMapS [("conditionsTree", GMapS [entry n])]) ("{" ++ quoted "conditionsTree" ++ ":" ++ s ++ "}"))
    by (apply one_entry; [plain_key|auto]).
  assert (ET : tree_json L (Some n) = Ok ("{" ++ quoted "conditionsTree" ++ ":" ++ s ++ "}")).
  { unfold tree_json. rewrite ES. destruct n; try reflexivity. inversion HC. }
  unfold copy_tree, pbind at 1, pret at 1. rewrite ET. unfold unmarshal_json_tree.
  assert (EB : forall x, String.eqb ("{" ++ quoted "conditionsTree" ++ x) "{}" || String.eqb ("{" ++ quoted "conditionsTree" ++ x) "[]" = false) by reflexivity.
  rewrite EB. rewrite (document_parses L _ _ (ex_intro _ "" (ex_intro _ _ (ex_intro _ "" (conj I (conj I (conj HT (eq_sym (append_nil_r _))))))))).
  assert (HV : go_value (GMapS [("conditionsTree", GMapS [entry n])])) by (apply one_go_value, one_go_value, entry_value; auto).
  assert (HSg : single (GMapS [("conditionsTree", GMapS [entry n])])).
  { apply one_single; [apply one_single; apply entry_single; auto|]. apply not_quant. simpl. intuition discriminate. }
  destruct (entry_back n HC HM t) as [t0 E0].
  assert (E : fst (parse_conditions_tree L as_listed (GMapS [("conditionsTree", GMapS [entry n])]) t) = Ok n).
  { unfold parse_conditions_tree.
    change (interpret L as_listed (GMapS [("conditionsTree", GMapS [entry n])]) "" t) with (interpret L as_listed (GMapS [entry n]) "conditionsTree" t).
    rewrite one_key_map by (try (apply entry_key; auto); simpl; auto). rewrite E0. reflexivity. }
  apply (loading_order L as_listed ord _ t t n as_listed_fair Hfair HV HSg) in E.
  unfold pbind. destruct (parse_conditions_tree L ord _ t) as [r t'] eqn:EP. cbn [fst] in E. subst r. exists t'. reflexivity.
Qed.

(** ** Rules *)
(** a rule as loaded: its tree, if any, was returned by the loader and can be copied *)
Definition faithful_tree (t : option (node L)) : Prop :=
  match t with
  | None => True
  | Some n => copyable L n /\ exists ord v u u', fair ord /\ go_value v /\ parse_conditions_tree L ord v u = (Ok n, u')
  end.
Theorem rule_copied ord (r : rule L) : fair ord -> underived L r -> faithful_tree (ru_tree r) ->
  forall t, exists t', copy_rule L ord r t = (Ok r, t').
Proof.
  intros Hfair (H1 & H2 & H3 & H4 & H5) HT t.
  assert (HC : exists t', copy_tree L ord (ru_tree r) t = (Ok (ru_tree r), t')).
  { destruct (ru_tree r) as [n|]; [|exists t; reflexivity]. destruct HT as (HC & ord' & v & u & u' & HF & HG & HP).
    apply copy_faithful; auto. eapply tree_made; eauto. }
  destruct HC as [t' HC]. exists t'. unfold copy_rule. eapply pbind_step; [exact HC|].
  destruct r. cbn in *. subst. reflexivity.
Qed.
Theorem prepared_copy ord p (r : rule L) : fair ord -> underived L r -> faithful_tree (ru_tree r) -> forall t,
  fst (fst (set_predefined L ord p (load_rule L r) t)) = match prepare_rule L p r with Ok _ => Ok tt | Err => Err | Panic => Panic end /\
  forall c, prepare_rule L p r = Ok c -> rs_prepared (snd (fst (set_predefined L ord p (load_rule L r) t))) = Some c.
Proof.
  intros Hfair HU HT t. destruct (rule_copied ord r Hfair HU HT t) as [t' E]. unfold set_predefined. cbn [load_rule rs_rule]. rewrite E.
  destruct (prepare_rule L p r); cbn [fst snd rs_prepared]; split; auto; intros; congruence.
Qed.
End WithLib.
