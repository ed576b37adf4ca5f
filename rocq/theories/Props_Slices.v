(** C52: evaluation on raw bytes in shared memory. *)
From Coq Require Import List String Ascii Bool Arith ZArith Lia.
From Verif Require Import Base GoStr GoStr_facts GoFloat Types Json StrUtils Validate Prepare Parse Lifecycle Eval RefLib Samples Slices Spec_Slices Slices_proofs Props_Strings.
Import ListNotations.
Open Scope string_scope.

(** While every ANY and ALL has one parent path, or the library copies, evaluation in shared memory gives the results
    of evaluation on copies, and no byte that was in memory changes. *)
Theorem C52_copying L ord G n st : well_placed L G -> in_memory st -> one_parent n \/ always_new G ->
  let r := seval L ord G n st in
  eval L ord n (view st) = (fst r, view (snd r)) /\ s_doc (snd r) = s_doc st /\
  forall s, in_heap (s_heap st) s -> in_heap (s_heap (snd r)) s /\ content (s_heap (snd r)) s = content (s_heap st) s.
Proof.
  intros HW HM HS. destruct (seval_sim L ord G HW n HS st HM) as [E (D & (more & H) & _)]. cbv zeta. split; auto. split; auto.
  intros s Hs. rewrite H. split; [apply in_heap_more|apply content_more]; auto.
Qed.
Print Assumptions C52_copying.

(** With two parent paths in the document whose results are parts of it, the bytes after the first result are
    replaced by a comma and the bytes that are then at the place of the second result. *)
Theorem C52_overwritten L ord G q a n st d p1 p2 o1 l1 o2 l2 : well_placed L G -> one_parent n ->
  m_raw (s_msg st) = None -> in_memory st -> s_doc st = Some d -> a_parents a = [p1; p2] -> relative_parent p1 = false -> relative_parent p2 = false ->
  forall doc, content (s_heap st) d = doc ->
  get_place G doc p1 = Some (Within o1 (S l1)) -> get_place G doc p2 = Some (Within o2 (S l2)) ->
  let i := o1 + S l1 in
  i + 1 + S l2 <= String.length doc ->
  let doc1 := take i doc ++ "," ++ drop (i + 1) doc in
  m_json (e_msg (view (snd (seval L ord G (NQuant q a n) st)))) =
    Some (take i doc ++ "," ++ take (S l2) (drop o2 doc1) ++ drop (i + 1 + S l2) doc).
Proof. exact (overwritten L ord G q a n st d p1 p2 o1 l1 o2 l2). Qed.
Print Assumptions C52_overwritten.

(** ** The reference library returning parts of its input *)
Fixpoint find_from (sub s : string) (i : nat) : option nat :=
  if String.prefix sub s then Some i else
  match s with
  | EmptyString => None
  | String _ s' => find_from sub s' (S i)
  end.
Definition sharing : memory :=
  mkMemory (fun data path =>
      match js_get RefLib data path with
      | (_, true) => None
      | (bytes, false) => match find_from bytes data 0 with Some off => Some (Within off (String.length bytes)) | None => Some (New bytes) end
      end)
    (fun _ => "").
Definition copying : memory :=
  mkMemory (fun data path => match js_get RefLib data path with (_, true) => None | (bytes, false) => Some (New bytes) end) (fun _ => "    ").

Lemma prefix_app sub s : String.prefix sub s = true -> exists after, s = sub ++ after.
Proof.
  revert s. induction sub as [|c sub IH]; intros s H; [exists s; reflexivity|].
  destruct s as [|c' s]; simpl in H; [discriminate|]. destruct (ascii_dec c c'); [subst|discriminate].
  destruct (IH s H) as [after ->]. exists after. reflexivity.
Qed.
Lemma find_from_ok sub s : forall i off, find_from sub s i = Some off ->
  exists before after, s = before ++ sub ++ after /\ i + String.length before = off.
Proof.
  induction s as [|c s IH]; intros i off H; cbn [find_from] in H.
  - destruct (String.prefix sub "") eqn:E; [|discriminate]. inversion H; subst. destruct (prefix_app _ _ E) as [after Ea]. exists "", after. split; auto.
  - destruct (String.prefix sub (String c s)) eqn:E.
    + inversion H; subst. destruct (prefix_app _ _ E) as [after Ea]. exists "", after. split; auto.
    + apply IH in H. destruct H as (before & after & -> & H). exists (String c before), after. split; auto. simpl. lia.
Qed.
Lemma sharing_placed : well_placed RefLib sharing.
Proof.
  intros data path. unfold sharing. cbn [get_place]. destruct (js_get RefLib data path) as [bytes [|]]; auto.
  destruct (find_from bytes data 0) as [off|] eqn:E; auto. apply find_from_ok in E. destruct E as (before & after & E & H). exists before, after. auto.
Qed.
Lemma copying_placed : well_placed RefLib copying /\ always_new copying.
Proof.
  split.
  - intros data path. unfold copying. cbn [get_place]. destruct (js_get RefLib data path) as [bytes [|]]; auto.
  - intros data path off len. unfold copying. cbn [get_place]. destruct (js_get RefLib data path) as [bytes [|]]; discriminate.
Qed.

(** a message with the given bytes *)
Definition start (doc : string) : mst := mkMst msg0 0 [quotes doc] (Some (mkSlice 0 0 (String.length (quotes doc)))) None.
Lemma start_ok doc : in_memory (start doc) /\ view (start doc) = mkEst (bytes_msg doc) 0.
Proof.
  split.
  - split; intros s H; inversion H; subst. exists (quotes doc). split; auto.
  - unfold view, start. cbn. f_equal. unfold bytes_msg, set_json, with_bytes. cbn. f_equal. f_equal.
    unfold content. cbn. clear. induction (quotes doc); simpl; congruence.
Qed.
Definition two_parents (path1 path2 tree : string) : string :=
  "{'ANY':{'parentJsonpathAttribute':'jsonpath:" ++ path1 ++ ",jsonpath:" ++ path2 ++ "','condition':" ++ tree ++ "}}".
Definition c52_doc : string := "{'a':[{'x':1}],'b':[{'x':2}],'c':1}".
Definition c52_any : string := two_parents "$.a" "$.b" (cond_text "jsonpath:$RELATIVE.x" "EQ" "1").
Definition c52_tree : string := two "AND" c52_any (cond_text "jsonpath:$.c" "EQ" "1").
Definition srun (G : memory) (tree : string) (st : mst) : option bool * mst :=
  match prepared_tree tree with
  | Some n => let r := seval RefLib in_order G n st in (option_map fst (fst r), snd r)
  | None => (None, st)
  end.
Definition doc_of (st : mst) : option string := m_json (e_msg (view st)).

(** one of two parts of the same document changes it, and with it the value of the tree *)
Theorem C52_shared_refuted : exists G tree doc, well_placed RefLib G /\ in_memory (start doc) /\
  run_flag in_order tree (bytes_msg doc) = Some true /\ fst (srun G tree (start doc)) = Some false.
Proof.
  exists sharing, c52_tree, c52_doc. split; [exact sharing_placed|]. split; [apply start_ok|]. vm_compute. split; reflexivity.
Qed.
Print Assumptions C52_shared_refuted.
(** evaluating twice on the same message gives two values *)
Theorem C52_again_refuted : exists G tree doc, well_placed RefLib G /\ in_memory (start doc) /\
  let r := srun G tree (start doc) in
  fst r = Some true /\ fst (srun G tree (snd r)) = Some false /\
  doc_of (snd r) = Some (quotes "{'a':[{'x':1}],[{'x':2}]:2}],'c':1}").
Proof.
  exists sharing, c52_any, c52_doc. split; [exact sharing_placed|]. split; [apply start_ok|]. vm_compute. repeat split.
Qed.
Print Assumptions C52_again_refuted.

(** ** Cases *)
Fixpoint one_parentb {L} (n : node L) : bool :=
  match n with
  | NAnd ns | NOr ns => forallb one_parentb ns
  | NNot n' => one_parentb n'
  | NQuant _ a n' => (List.length (a_parents a) <=? 1)%nat && one_parentb n'
  | _ => true
  end.
Lemma one_parentb_ok L (n : node L) : one_parentb n = true -> one_parent n.
Proof.
  induction n as [ns IH|ns IH|n IH|q a n IH| | |c|] using Tree_proofs.node_ind'; simpl; intro H; constructor; auto.
  - apply Forall_forall. intros x Hx. rewrite forallb_forall in H. rewrite Forall_forall in IH. auto.
  - apply Forall_forall. intros x Hx. rewrite forallb_forall in H. rewrite Forall_forall in IH. auto.
  - apply andb_prop in H. apply Nat.leb_le. apply H.
  - apply andb_prop in H. apply IH, H.
Qed.
Definition c52_one : string :=
  two "AND" ("{'ANY':{'parentJsonpathAttribute':'jsonpath:$.a','condition':" ++ cond_text "jsonpath:$RELATIVE.x" "EQ" "1" ++ "}}")
            ("{'ALL':{'parentJsonpathAttribute':'jsonpath:$.b','condition':" ++ cond_text "jsonpath:$RELATIVE.x" "EQ" "2" ++ "}}").
Lemma of_prepared (P : node RefLib -> bool) tree : match prepared_tree tree with Some n => P n | None => false end = true ->
  exists n, prepared_tree tree = Some n /\ P n = true.
Proof. destruct (prepared_tree tree); [eauto|discriminate]. Qed.

(** a tree with one parent each, parts of the document, and a tree with two parents, copies *)
Example C52_case :
  (exists n, prepared_tree c52_one = Some n /\ one_parent n) /\ well_placed RefLib sharing /\
  (exists n, prepared_tree c52_any = Some n) /\ well_placed RefLib copying /\ always_new copying /\
  in_memory (start c52_doc) /\
  fst (srun sharing c52_one (start c52_doc)) = Some true /\ doc_of (snd (srun sharing c52_one (start c52_doc))) = Some (quotes c52_doc) /\
  fst (srun copying c52_tree (start c52_doc)) = Some true /\ doc_of (snd (srun copying c52_tree (start c52_doc))) = Some (quotes c52_doc).
Proof.
  split. { destruct (of_prepared one_parentb c52_one) as (n & E & H); [vm_compute; reflexivity|]. exists n. split; [exact E|]. apply one_parentb_ok. exact H. }
  split; [exact sharing_placed|].
  split. { destruct (of_prepared (fun _ => true) c52_any) as (n & E & H); [vm_compute; reflexivity|]. exists n. exact E. }
  split; [apply copying_placed|]. split; [apply copying_placed|]. split; [apply start_ok|]. vm_compute. repeat split.
Qed.

Definition two_parentb (p1 p2 : string) (n : node RefLib) : bool :=
  match n with
  | NQuant _ a n' => match a_parents a with [x; y] => String.eqb x p1 && String.eqb y p2 | _ => false end && one_parentb n'
  | _ => false
  end.
(** the places of the two results in the document: bytes 5 to 14 and 19 to 28 *)
Example C52_overwritten_case : exists q a n,
  prepared_tree c52_any = Some (NQuant q a n) /\ one_parent n /\ a_parents a = ["$.a"; "$.b"] /\
  relative_parent "$.a" = false /\ relative_parent "$.b" = false /\
  get_place sharing (quotes c52_doc) "$.a" = Some (Within 5 (S 8)) /\ get_place sharing (quotes c52_doc) "$.b" = Some (Within 19 (S 8)) /\
  5 + S 8 + 1 + S 8 <= String.length (quotes c52_doc).
Proof.
  destruct (of_prepared (two_parentb "$.a" "$.b") c52_any) as (n & E & H); [vm_compute; reflexivity|].
  destruct n as [| | |q a n| | | |]; try discriminate H. cbn [two_parentb] in H. apply andb_prop in H. destruct H as [H1 H2].
  exists q, a, n. split; [exact E|]. split; [apply one_parentb_ok; auto|].
  split.
  { destruct (a_parents a) as [|x [|y [|]]]; try discriminate H1. apply andb_prop in H1. destruct H1 as [Hx Hy].
    apply String.eqb_eq in Hx, Hy. subst. reflexivity. }
  split; [reflexivity|]. split; [reflexivity|]. split; [vm_compute; reflexivity|]. split; [vm_compute; reflexivity|]. vm_compute. lia.
Qed.
