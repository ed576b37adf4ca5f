(** The text of a tree inside of a rule: the compacted text that the tree writes. *)
From Coq Require Import List String Ascii Bool Arith ZArith Lia.
From Verif Require Import Base GoStr GoFloat Types Json StrUtils GoStr_facts Validate Prepare Parse Marshal JsonDoc Spec_Tree Tree_proofs Spec_Glob Spec_Json Json_proofs Print_proofs Copy_proofs Compact_proofs.
From Verif Require Import Spec_Copy Spec_JsonCopy.
Import ListNotations.
Open Scope string_scope.

Section WithLib.
Variable L : Lib.
Local Ltac plain_key := repeat split; try discriminate; vm_compute; lia.
Notation doc s := (exists v, document L v s).
Lemma text_doc v s : text L v s -> document L v s.
Proof. intro H. exists "", s, "". rewrite append_nil_r. repeat split; auto. Qed.
Lemma docs_elements ss : ss <> [] -> Forall (fun s => doc s) ss -> exists vs, elements L vs (join "," ss).
Proof.
  intros HN H. induction H as [|s ss (v & w1 & t & w2 & H1 & H2 & HT & ->) HF IH]; [congruence|]. destruct ss as [|s2 ss].
  - exists [v]. apply el_one; auto.
  - destruct (IH ltac:(discriminate)) as [vs HE]. exists (v :: vs). rewrite join_cons, !append_assoc. apply el_cons; auto.
Qed.
Definition field (f : string) : Prop := exists k ks s, chars k ks /\ (doc s) /\ f = quoted ks ++ ":" ++ s.
Lemma fields_members fs : fs <> [] -> Forall field fs -> exists kvs, members L kvs (join "," fs).
Proof.
  intros HN H. induction H as [|f fs (k & ks & s & HK & (v & w1 & t & w2 & H1 & H2 & HT & ->) & ->) HF IH]; [congruence|]. unfold quoted. destruct fs as [|f2 fs].
  - exists [(k, v)]. exact (mb_one L k ks v t "" "" w1 w2 I I H1 H2 HK HT).
  - destruct (IH ltac:(discriminate)) as [kvs HE]. exists ((k, v) :: kvs). rewrite join_cons. pose proof (mb_cons L k ks v t "" "" w1 w2 kvs _ I I H1 H2 HK HT HE) as H.
    rewrite !append_assoc in *. exact H.
Qed.
Lemma fields_text fs : Forall field fs -> exists v, text L v ("{" ++ join "," fs ++ "}").
Proof.
  intro H. destruct fs as [|f fs].
  - exists (GMapS []). apply (tx_empty_object L ""). exact I.
  - destruct (fields_members (f :: fs) ltac:(discriminate) H) as [kvs HM]. exists (object kvs). apply tx_object. auto.
Qed.
Lemma elements_text ss : ss <> [] -> Forall (fun s => doc s) ss -> exists v, text L v ("[" ++ join "," ss ++ "]").
Proof. intros HN H. destruct (docs_elements ss HN H) as [vs HE]. exists (GArr vs). apply tx_array. auto. Qed.
Lemma map_text m : exists v, text L v (string_map_json L m).
Proof.
  unfold string_map_json.
  assert (E : all_some (map (fun kv => option_map (pair (fst kv)) (json_marshal L (snd kv))) (map (fun kv => (fst kv, GStr (snd kv))) m)) =
    Some (map (fun kv => (fst kv, json_string (snd kv))) m)).
  { induction m as [|kv m IH]; [auto|]. simpl. rewrite IH. auto. }
  cbn [json_marshal]. rewrite E. cbn [option_map]. apply fields_text. apply Forall_forall. intros f HI. apply in_map_iff in HI. destruct HI as ((k & s) & <- & HI). cbn [fst snd].
  exists k, (json_escape k), s. split; [apply escape_chars|]. split; [|reflexivity].
  apply (Permutation.Permutation_in _ (sort_perm _)) in HI. apply in_map_iff in HI. destruct HI as ((k' & s') & E' & _). injection E' as <- <-. exists (GStr s'). apply text_doc, string_text.
Qed.
Lemma closed_doc s : doc s -> closed s.
Proof. intros [v H]. apply (document_compacts L v s H). Qed.
Lemma closed_quoted x k : chars x k -> closed (quoted k).
Proof. intro H. destruct (quoted_compacts x k H) as (k' & _ & HR). apply compacts_is in HR. apply HR. Qed.

Definition rmap (f : string -> string) (r : res string) : res string := match r with Ok s => Ok (f s) | Err => Err | Panic => Panic end.
Lemma checked_iff s x : checked L s = Ok x <-> x = s /\ doc s.
Proof.
  unfold checked. destruct (json_parse L s) as [v|] eqn:E; cbn.
  - apply parse_iff in E. split; [intro H; injection H as <-; eauto|intros [-> _]; auto].
  - split; [discriminate|]. intros [_ [v H]]. apply parse_iff in H. congruence.
Qed.
Lemma checked_doc s : doc s -> checked L s = Ok s.
Proof. intro H. apply checked_iff. auto. Qed.
Lemma checked_panic s : checked L s <> Panic.
Proof. unfold checked. destruct (is_some _); discriminate. Qed.
Lemma compact_doc s : doc s -> doc (compact false s).
Proof. intros [v H]. exists v. apply text_doc, document_compacts. auto. Qed.
Lemma compact_twice s : doc s -> compact false (compact false s) = compact false s.
Proof. intros [v H]. apply (document_compacts L v s H). Qed.
Lemma checked_out_is s : checked_out L s = rmap (compact false) (checked L s).
Proof. unfold checked_out. destruct (checked L s); reflexivity. Qed.

(** ** ANY and ALL *)
Definition aa_fields (a : aanode L) (x : string) : list string :=
  List.app [quoted "parentJsonpathAttribute" ++ ":" ++ quoted (original_or (a_orig a) (a_parent a))]
  (List.app (match orig_ret L (a_ret a) with None | Some [] => [] | Some m => [quoted "returnValueJsonpath" ++ ":" ++ string_map_json L m] end)
   [quoted "condition" ++ ":" ++ x]).
Lemma aa_object q a x : aa_json L q a x = "{" ++ quoted (match q with QAny => "ANY" | QAll => "ALL" end) ++ ":" ++ ("{" ++ join "," (aa_fields a x) ++ "}") ++ "}".
Proof.
  unfold aa_json, aa_fields. f_equal. f_equal. destruct (orig_ret L (a_ret a)) as [[|e m]|]; cbn [app join]; rewrite !append_assoc; cbn [append]; rewrite ?append_assoc; reflexivity.
Qed.
Lemma key_chars k : unescaped k -> chars k k.
Proof. apply unescaped_chars. Qed.
Lemma field_intro k s : unescaped k -> doc s -> field (quoted k ++ ":" ++ s).
Proof. intros HK HS. exists k, k, s. split; [apply key_chars; auto|]. split; auto. Qed.
Lemma aa_doc q a x : (exists p, chars p (original_or (a_orig a) (a_parent a))) -> doc x -> exists v, text L v (aa_json L q a x).
Proof.
  intros [p HP] HX. rewrite aa_object.
  assert (HF : Forall field (aa_fields a x)).
  { unfold aa_fields. apply Forall_app. split; [|apply Forall_app; split].
    - constructor; [|constructor]. apply field_intro; [plain_key|]. exists (GStr p). apply text_doc, tx_string. auto.
    - destruct (orig_ret L (a_ret a)) as [[|e m]|]; [constructor| |constructor]. constructor; [|constructor]. apply field_intro; [plain_key|].
      destruct (map_text (e :: m)) as [v HV]. exists v. apply text_doc. auto.
    - constructor; [|constructor]. apply field_intro; [plain_key|]. auto. }
  destruct (fields_text _ HF) as [v HV]. apply text_doc in HV.
  destruct (fields_text [quoted (match q with QAny => "ANY" | QAll => "ALL" end) ++ ":" ++ ("{" ++ join "," (aa_fields a x) ++ "}")]) as [v' HV'].
  - constructor; [|constructor]. apply field_intro; [destruct q; plain_key|]. eauto.
  - exists v'. cbn [join] in HV'. rewrite !append_assoc in HV'. rewrite !append_assoc. exact HV'.
Qed.
Lemma aa_compact q a x : (exists p, chars p (original_or (a_orig a) (a_parent a))) -> doc x -> compact false (aa_json L q a (compact false x)) = compact false (aa_json L q a x).
Proof.
  intros [p HP] HX.
  assert (HS : exists pre, closed pre /\ forall z, aa_json L q a z = pre ++ z ++ "}}").
  { exists ("{" ++ quoted (match q with QAny => "ANY" | QAll => "ALL" end) ++ ":{" ++ quoted "parentJsonpathAttribute" ++ ":" ++ quoted (original_or (a_orig a) (a_parent a)) ++ ","
      ++ (match orig_ret L (a_ret a) with None | Some [] => "" | Some m => quoted "returnValueJsonpath" ++ ":" ++ string_map_json L m ++ "," end) ++ quoted "condition" ++ ":").
    split; [|intro z; unfold aa_json; rewrite !append_assoc; reflexivity].
    assert (B0 : closed "") by (intro r; reflexivity). assert (B1 : closed "{") by (intro r; reflexivity). assert (B2 : closed ":{") by (intro r; reflexivity).
    assert (B3 : closed ":") by (intro r; reflexivity). assert (B4 : closed ",") by (intro r; reflexivity).
    assert (B5 : closed (quoted "parentJsonpathAttribute")) by (intro r; reflexivity). assert (B6 : closed (quoted "returnValueJsonpath")) by (intro r; reflexivity).
    assert (B7 : closed (quoted "condition")) by (intro r; reflexivity).
    repeat match goal with |- closed (_ ++ _) => apply closed_app end; try match goal with H : closed ?x |- closed ?x => exact H end.
    - destruct q; intro r; reflexivity.
    - apply (closed_quoted _ _ HP).
    - destruct (orig_ret L (a_ret a)) as [[|e m]|]; try match goal with H : closed ?x |- closed ?x => exact H end. repeat match goal with |- closed (_ ++ _) => apply closed_app end; try match goal with H : closed ?x |- closed ?x => exact H end.
      apply closed_doc. destruct (map_text (e :: m)) as [v HV]. exists v. apply text_doc. auto. }
  destruct HS as (pre & HC & HS). rewrite !HS, !(HC _). f_equal. rewrite (closed_doc _ HX), (closed_doc _ (compact_doc _ HX)), (compact_twice _ HX). reflexivity.
Qed.

(** ** Trees *)
Lemma join_compact xs : Forall (fun s => doc s) xs -> forall r, compact false (join "," xs ++ r) = join "," (map (compact false) xs) ++ compact false r.
Proof.
  intros HF. induction HF as [|x xs HX HF IH]; intro r; [reflexivity|]. destruct xs as [|y xs].
  - cbn [join map]. apply (closed_doc _ HX).
  - cbn [map] in *. rewrite !join_cons, !append_assoc, (closed_doc _ HX). f_equal. change (compact false ("," ++ ?z)) with ("," ++ compact false z).
    change (compact false ("," ++ join "," (y :: xs) ++ r)) with ("," ++ compact false (join "," (y :: xs) ++ r)). rewrite IH. reflexivity.
Qed.
Lemma seq_nodes ns : Forall (fun n => node_out L n = rmap (compact false) (node_json L n) /\ forall s, node_json L n = Ok s -> doc s) ns ->
  match rseq (map (node_json L) ns) with
  | Ok xs => rseq (map (node_out L) ns) = Ok (map (compact false) xs) /\ Forall (fun s => doc s) xs /\ List.length xs = List.length ns
  | Err => rseq (map (node_out L) ns) = Err
  | Panic => rseq (map (node_out L) ns) = Panic
  end.
Proof.
  induction 1 as [|n ns [H1 H2] HF IH]; [cbn; auto|]. cbn [map rseq]. rewrite H1. destruct (node_json L n) as [s| |]; cbn; auto.
  destruct (rseq (map (node_json L) ns)) as [xs| |]; cbn; [|rewrite IH; reflexivity|rewrite IH; reflexivity].
  destruct IH as (-> & HD & HL). cbn. split; auto. 
Qed.
Lemma not_out n : node_out L (NNot n) = match n with NNil => Ok "{}" | _ => do x <- node_out L n; Ok ("{" ++ quoted "NOT" ++ ":" ++ x ++ "}") end.
Proof. reflexivity. Qed.
Lemma not_json n : node_json L (NNot n) = match n with NNil => Ok "{}" | _ => do x <- node_json L n; Ok ("{" ++ quoted "NOT" ++ ":" ++ x ++ "}") end.
Proof. reflexivity. Qed.
Lemma node_compact n : spliced L n -> node_out L n = rmap (compact false) (node_json L n) /\ forall s, node_json L n = Ok s -> doc s.
Proof.
  induction n as [ns IH|ns IH|n IH|q a n IH| | |c|] using node_ind'; intro HS; inversion HS as [? HF|? HF|? HF|? ? ? HP HF| | | |]; subst.
  - assert (HA : Forall (fun n => node_out L n = rmap (compact false) (node_json L n) /\ forall s, node_json L n = Ok s -> doc s) ns).
    { clear HS. induction IH; inversion HF; subst; constructor; auto. }
    apply seq_nodes in HA. destruct ns as [|n0 ns]; [split; [reflexivity|]; intros s H; injection H as <-; exists (GMapS []); apply text_doc, (tx_empty_object L ""); exact I|].
    cbn [node_out node_json]. destruct (rseq (map (node_json L) (n0 :: ns))) as [xs| |]; [|rewrite HA; split; [reflexivity|discriminate]|rewrite HA; split; [reflexivity|discriminate]].
    destruct HA as (HA & HD & HL). rewrite HA. cbn [rmap rbind]. split.
    + f_equal. change (compact false ("{" ++ quoted "AND" ++ ":[" ++ join "," xs ++ "]}")) with ("{" ++ quoted "AND" ++ ":[" ++ compact false (join "," xs ++ "]}")).
      rewrite (join_compact _ HD). reflexivity.
    + intros s H. injection H as <-. destruct (elements_text xs) as [v HV]; auto; [destruct xs; [discriminate HL|discriminate]|].
      destruct (fields_text [quoted "AND" ++ ":" ++ ("[" ++ join "," xs ++ "]")]) as [v' HV'].
      * constructor; [|constructor]. apply field_intro; [plain_key|]. exists v. apply text_doc. auto.
      * exists v'. apply text_doc. cbn [join] in HV'. rewrite !append_assoc in *. exact HV'.
  - assert (HA : Forall (fun n => node_out L n = rmap (compact false) (node_json L n) /\ forall s, node_json L n = Ok s -> doc s) ns).
    { clear HS. induction IH; inversion HF; subst; constructor; auto. }
    apply seq_nodes in HA. destruct ns as [|n0 ns]; [split; [reflexivity|]; intros s H; injection H as <-; exists (GMapS []); apply text_doc, (tx_empty_object L ""); exact I|].
    cbn [node_out node_json]. destruct (rseq (map (node_json L) (n0 :: ns))) as [xs| |]; [|rewrite HA; split; [reflexivity|discriminate]|rewrite HA; split; [reflexivity|discriminate]].
    destruct HA as (HA & HD & HL). rewrite HA. cbn [rmap rbind]. split.
    + f_equal. change (compact false ("{" ++ quoted "OR" ++ ":[" ++ join "," xs ++ "]}")) with ("{" ++ quoted "OR" ++ ":[" ++ compact false (join "," xs ++ "]}")).
      rewrite (join_compact _ HD). reflexivity.
    + intros s H. injection H as <-. destruct (elements_text xs) as [v HV]; auto; [destruct xs; [discriminate HL|discriminate]|].
      destruct (fields_text [quoted "OR" ++ ":" ++ ("[" ++ join "," xs ++ "]")]) as [v' HV'].
      * constructor; [|constructor]. apply field_intro; [plain_key|]. exists v. apply text_doc. auto.
      * exists v'. apply text_doc. cbn [join] in HV'. rewrite !append_assoc in *. exact HV'.
  - destruct (IH HF) as [I1 I2].
    assert (HN : n = NNil \/ (node_out L (NNot n) = (do x <- node_out L n; Ok ("{" ++ quoted "NOT" ++ ":" ++ x ++ "}")) /\ node_json L (NNot n) = (do x <- node_json L n; Ok ("{" ++ quoted "NOT" ++ ":" ++ x ++ "}")))).
    { clear. rewrite !not_out, !not_json. destruct n; first [left; reflexivity|right; split; reflexivity]. }
    destruct HN as [->|[-> ->]].
    + split; [reflexivity|]. intros s H. injection H as <-. exists (GMapS []). apply text_doc, (tx_empty_object L ""). exact I.
    + rewrite I1. destruct (node_json L n) as [x| |]; cbn [rmap rbind]; [|split; [reflexivity|discriminate]|split; [reflexivity|discriminate]]. split.
      * f_equal. change (compact false ("{" ++ quoted "NOT" ++ ":" ++ x ++ "}")) with ("{" ++ quoted "NOT" ++ ":" ++ compact false (x ++ "}")). rewrite (closed_doc _ (I2 x eq_refl)). reflexivity.
      * intros s H. injection H as <-. destruct (fields_text [quoted "NOT" ++ ":" ++ x]) as [v' HV'].
        -- constructor; [|constructor]. apply field_intro; [plain_key|]. auto.
        -- exists v'. apply text_doc. cbn [join] in HV'. rewrite !append_assoc in *. exact HV'.
  - destruct (IH HF) as [I1 I2]. cbn [node_out node_json]. rewrite I1. destruct (node_json L n) as [x| |]; cbn [rmap rbind]; [|split; [reflexivity|discriminate]|split; [reflexivity|discriminate]].
    specialize (I2 x eq_refl). destruct (aa_doc q a x HP I2) as [v HV]. destruct (aa_doc q a _ HP (compact_doc _ I2)) as [v' HV'].
    pose proof (text_doc _ _ HV) as HD. pose proof (text_doc _ _ HV') as HD'. rewrite checked_out_is, !checked_doc by eauto. cbn [rmap]. split; [rewrite aa_compact; auto|].
    intros s H. injection H as <-. exists v. apply text_doc. auto.
  - split; [reflexivity|]. intros s H. injection H as <-. exists (GMapS []). apply text_doc, (tx_empty_object L ""). exact I.
  - split; [reflexivity|]. intros s H. injection H as <-. exists (GMapS []). apply text_doc, (tx_empty_object L ""). exact I.
  - cbn [node_out node_json]. split; [apply checked_out_is|]. intros s H. apply checked_iff in H. destruct H as [-> H]. auto.
  - split; [reflexivity|]. intros s H. injection H as <-. exists GNil. apply text_doc, tx_null.
Qed.
Lemma tree_compact t : spliced_tree L t -> tree_out L t = rmap (compact false) (tree_json L t) /\ forall s, tree_json L t = Ok s -> doc s.
Proof.
  intro H. destruct t as [n|].
  2: { split; [reflexivity|]. intros s E. injection E as <-. exists (GMapS []). apply text_doc, (tx_empty_object L ""). exact I. }
  destruct (node_compact n H) as [I1 I2].
  assert (HN : n = NNil \/ (tree_out L (Some n) = (do x <- node_out L n; Ok ("{" ++ quoted "conditionsTree" ++ ":" ++ x ++ "}")) /\ tree_json L (Some n) = (do x <- node_json L n; Ok ("{" ++ quoted "conditionsTree" ++ ":" ++ x ++ "}")))).
  { clear; destruct n; first [left; reflexivity|right; split; reflexivity]. }
  destruct HN as [->|[-> ->]].
  - split; [reflexivity|]. intros s E. injection E as <-. exists (GMapS []). apply text_doc, (tx_empty_object L ""). exact I.
  - rewrite I1. destruct (node_json L n) as [x| |]; cbn [rmap rbind]; [|split; [reflexivity|discriminate]|split; [reflexivity|discriminate]]. split.
    + f_equal. change (compact false ("{" ++ quoted "conditionsTree" ++ ":" ++ x ++ "}")) with ("{" ++ quoted "conditionsTree" ++ ":" ++ compact false (x ++ "}")). rewrite (closed_doc _ (I2 x eq_refl)). reflexivity.
    + intros s E. injection E as <-. destruct (fields_text [quoted "conditionsTree" ++ ":" ++ x]) as [v' HV'].
      * constructor; [|constructor]. apply field_intro; [plain_key|]. auto.
      * exists v'. apply text_doc. cbn [join] in HV'. rewrite !append_assoc in *. exact HV'.
Qed.
Lemma tree_start t s : tree_json L t = Ok s -> s = "{}" \/ exists r, s = String "{" (String dq r) /\ exists r', compact false s = String "{" (String dq r').
Proof.
  destruct t as [n|]; [|intro H; injection H as <-; auto]. intro H.
  assert (HN : n = NNil \/ tree_json L (Some n) = (do x <- node_json L n; Ok ("{" ++ quoted "conditionsTree" ++ ":" ++ x ++ "}"))) by (clear; destruct n; first [left; reflexivity|right; reflexivity]).
  destruct HN as [->|E]; [injection H as <-; auto|]. rewrite E in H. destruct (node_json L n) as [x| |]; try discriminate H. cbn in H. injection H as <-. right. eexists. split; [reflexivity|]. exists ("conditionsTree" ++ dqs ++ ":" ++ compact false (x ++ "}")). reflexivity.
Qed.
(** the tree is read back from the compacted text as from the text *)
Lemma tree_back ord t : spliced_tree L t ->
  match tree_out L t with
  | Ok s => (exists v, text L v s) /\ forall k, copy_tree L ord t k = unmarshal_json_tree L ord s k
  | Err => forall k, copy_tree L ord t k = (Err, k)
  | Panic => forall k, copy_tree L ord t k = (Panic, k)
  end.
Proof.
  intro H. destruct (tree_compact t H) as [-> HD]. pose proof (tree_start t) as HT. unfold copy_tree, pbind, pret. destruct (tree_json L t) as [s| |]; cbn [rmap]; auto.
  specialize (HD s eq_refl). destruct HD as [v HV]. split; [exists v; apply document_compacts; auto|]. intro k. destruct (HT s eq_refl) as [->|(r & E & r' & E')]; [reflexivity|].
  unfold unmarshal_json_tree. assert (P1 : json_parse L s = Some v) by (apply parse_iff; auto). rewrite P1, (compact_value L s v P1). rewrite E', E. reflexivity.
Qed.
End WithLib.
