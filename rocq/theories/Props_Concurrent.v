(** C46: evaluations in several goroutines. *)
From Coq Require Import List String Ascii Bool Arith ZArith.
From Verif Require Import Base GoStr GoFloat Types Json StrUtils Validate Prepare Parse Marshal Lifecycle Eval Check
  Spec_Tree Concurrent Spec_Concurrent Concurrent_proofs RefLib RefLib_facts Samples Props_Strings.
Import ListNotations.
Open Scope string_scope.

(** [eval_steps], [check_steps]: evaluation and Check cut into actions (Concurrent); run without
    interruption they are those of the model *)
Theorem C46_alone : forall L ord n e, alone (eval_steps L ord n) e = eval L ord n e.
Proof. exact eval_alone. Qed.
Print Assumptions C46_alone.
Theorem C46_check_alone : forall L ord g rules e, alone (check_steps L ord g rules) e = check L ord g rules e.
Proof. exact check_alone. Qed.
Print Assumptions C46_check_alone.

(** whatever the schedule, a program whose message object no other one writes gives the result it has alone ... *)
Theorem C46_undisturbed : forall A (p : pool A) i schedule a t q, undisturbed p i ->
  nth_error (p_threads p) i = Some (mkThread a t q) ->
  (forall r, returned (interleave schedule p) i r ->
     exists e, alone q (mkEst (p_heap p a) t) = (Some r, e) /\ p_heap (interleave schedule p) a = e_msg e) /\
  (panicked (interleave schedule p) i -> fst (alone q (mkEst (p_heap p a) t)) = None).
Proof. exact @undisturbed_result. Qed.
Print Assumptions C46_undisturbed.
(** ... and it does give it once it was scheduled often enough *)
Theorem C46_ends : forall A (p : pool A) i a t q, undisturbed p i -> nth_error (p_threads p) i = Some (mkThread a t q) ->
  exists k, forall schedule, k <= turns i schedule ->
    match alone q (mkEst (p_heap p a) t) with
    | (Some r, _) => returned (interleave schedule p) i r
    | (None, _) => panicked (interleave schedule p) i
    end.
Proof. exact @undisturbed_ends. Qed.
Print Assumptions C46_ends.

(** calls of Check on distinct message objects *)
Theorem C46_distinct : forall L h (cs : list (call L)) i c schedule, NoDup (map cl_addr cs) -> nth_error cs i = Some c ->
  (forall r, returned (interleave schedule (calls_pool L h cs)) i r ->
     fst (check L (cl_ord c) (cl_lists c) (cl_rules c) (mkEst (h (cl_addr c)) 0)) = Some r /\
     p_heap (interleave schedule (calls_pool L h cs)) (cl_addr c) = h (cl_addr c)) /\
  (panicked (interleave schedule (calls_pool L h cs)) i ->
     fst (check L (cl_ord c) (cl_lists c) (cl_rules c) (mkEst (h (cl_addr c)) 0)) = None).
Proof. exact calls_result. Qed.
Print Assumptions C46_distinct.
Theorem C46_distinct_ends : forall L h (cs : list (call L)) i c, NoDup (map cl_addr cs) -> nth_error cs i = Some c ->
  exists k, forall schedule, k <= turns i schedule ->
    match fst (check L (cl_ord c) (cl_lists c) (cl_rules c) (mkEst (h (cl_addr c)) 0)) with
    | Some r => returned (interleave schedule (calls_pool L h cs)) i r
    | None => panicked (interleave schedule (calls_pool L h cs)) i
    end.
Proof. exact calls_end. Qed.
Print Assumptions C46_distinct_ends.

(** trees without ANY and ALL may share a message object *)
Theorem C46_flat : forall L ord n, flat n -> reads_only (eval_steps L ord n).
Proof. exact flat_reads. Qed.
Print Assumptions C46_flat.

(** ** Sharing a message *)
Definition c46_any (path tree : string) : string := "{'ANY':{'parentJsonpathAttribute':'jsonpath:" ++ path ++ "','condition':" ++ tree ++ "}}".
Definition c46_rules (tree : string) : list (rstate RefLib) :=
  [sample "*" "workload" "*" "workload" "*" "*" "*" "*" (load_tree tree) "block"].
Definition c46_a : string := c46_any "$.a[:]" (cond_text "jsonpath:$RELATIVE.k" "EQ" "1").
Definition c46_b : string := c46_any "$.b[:]" (cond_text "jsonpath:$RELATIVE.k" "EQ" "2").
Definition c46_nested : string := c46_any "$.a[:]" (c46_any "$RELATIVE.l[:]" (cond_text "jsonpath:$RELATIVE.k" "EQ" "1")).
Definition c46_doc : message := parsed_msg "{'a':[{'k':1,'l':[{'k':1}]}],'b':[{'k':2}]}".
Definition c46_pool (addr1 addr2 : nat) (tree1 tree2 : string) : pool outcome :=
  calls_pool RefLib (fun _ => c46_doc) [mkCall in_order empty_predef (c46_rules tree1) addr1; mkCall in_order empty_predef (c46_rules tree2) addr2].
(** the decision of a goroutine that returned *)
Definition decision (p : pool outcome) (i : nat) : option nat :=
  match nth_error (p_threads p) i with
  | Some (mkThread _ _ (Done r)) => Some (out_decision r)
  | _ => None
  end.
Definition is_failed (p : pool outcome) (i : nat) : bool :=
  match nth_error (p_threads p) i with Some (mkThread _ _ Crashed) => true | _ => false end.
Definition alone_decision (tree : string) : option nat :=
  option_map out_decision (fst (check RefLib in_order empty_predef (c46_rules tree) (mkEst c46_doc 0))).
Definition has_element (m : message) : bool := match m_raw_rel m with Some _ => true | None => false end.
(** the first call up to its first element, then the second one, then the rest of both *)
Definition c46_late : list nat := (repeat 0 6 ++ repeat 1 6 ++ repeat 0 10 ++ repeat 1 10)%list.
(** the second call up to its element, the first one up to its element, the rest of both *)
Definition c46_early : list nat := (repeat 1 6 ++ repeat 0 6 ++ repeat 1 10 ++ repeat 0 10)%list.

(** both calls block on their own; sharing the message, neither applies *)
Theorem C46_shared_refuted : exists schedule, let p := interleave schedule (c46_pool 0 0 c46_a c46_b) in
  alone_decision c46_a = Some BLOCK /\ decision p 0 = Some DEFAULT /\ alone_decision c46_b = Some BLOCK /\ decision p 1 = Some DEFAULT.
Proof. exists c46_late. vm_compute. repeat split. Qed.
Print Assumptions C46_shared_refuted.
(** and the message keeps an element of the first call as its relative context *)
Theorem C46_restored_refuted : exists schedule, let p := interleave schedule (c46_pool 0 0 c46_a c46_b) in
  decision p 0 <> None /\ decision p 1 <> None /\ has_element c46_doc = false /\ has_element (p_heap p 0) = true.
Proof. exists c46_late. vm_compute. repeat split; discriminate. Qed.
Print Assumptions C46_restored_refuted.
(** nested ANY may even panic *)
Theorem C46_panic_refuted : exists schedule, let p := interleave schedule (c46_pool 0 0 c46_nested c46_b) in
  alone_decision c46_nested = Some BLOCK /\ is_failed p 0 = true.
Proof. exists c46_early. vm_compute. repeat split. Qed.
Print Assumptions C46_panic_refuted.

(** the same calls on two messages *)
Example C46_case : NoDup (map cl_addr [mkCall in_order empty_predef (c46_rules c46_a) 0; mkCall in_order empty_predef (c46_rules c46_b) 1]) /\
  decision (interleave c46_late (c46_pool 0 1 c46_a c46_b)) 0 = Some BLOCK /\ decision (interleave c46_late (c46_pool 0 1 c46_a c46_b)) 1 = Some BLOCK /\
  decision (interleave c46_early (c46_pool 0 1 c46_nested c46_b)) 0 = Some BLOCK.
Proof.
  split; [|vm_compute; repeat split].
  simpl. constructor; [intros [H|[]]; discriminate|constructor; [intros []|constructor]].
Qed.
Example C46_flat_case : exists n,
  load_tree (two "AND" (cond_text "jsonpath:$.a" "EX" "") ("{'NOT':" ++ cond_text "jsonpath:$.c" "EX" "" ++ "}")) = Some n /\ flat n.
Proof.
  destruct (load_tree _) as [n|] eqn:E.
  - exists n. split; [reflexivity|]. apply flatb_flat.
    assert (H : match load_tree (two "AND" (cond_text "jsonpath:$.a" "EX" "") ("{'NOT':" ++ cond_text "jsonpath:$.c" "EX" "" ++ "}")) with
      | Some n => flatb n | None => true end = true) by (vm_compute; reflexivity).
    rewrite E in H. exact H.
  - assert (H : match load_tree (two "AND" (cond_text "jsonpath:$.a" "EX" "") ("{'NOT':" ++ cond_text "jsonpath:$.c" "EX" "" ++ "}")) with
      | Some n => true | None => false end = true) by (vm_compute; reflexivity).
    rewrite E in H. discriminate.
Qed.
