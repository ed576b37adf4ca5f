(** C45: removal of quotes around path segments. *)
From Coq Require Import List String Ascii Bool Arith ZArith.
From Verif Require Import Base GoStr StrUtils Spec_Glob Spec_Quotes Quotes_proofs Samples.
Import ListNotations.
Open Scope string_scope.

(** [quote], [dot_quote], [unquoted], [unquoted_names], [without_quotes], [subsequence] (Spec_Quotes).
    A text with no quote right after a dot is unchanged. *)
Theorem C45_plain : forall s, ~ dot_quote s -> remove_dot_quotes s = s.
Proof. intros s H. apply plain_same; [discriminate|exact H]. Qed.
Print Assumptions C45_plain.
(** Of a text whose quotes after dots are those of quoted segments exactly these are removed. *)
Theorem C45_segments : forall s s', unquoted false s s' -> remove_dot_quotes s = s'.
Proof. intros s s'. apply segments_unquoted. Qed.
Print Assumptions C45_segments.
(** and removing again changes nothing *)
Theorem C45_idempotent : forall s s', unquoted_names false s s' -> remove_dot_quotes s = s' /\ remove_dot_quotes s' = s'.
Proof. intros s s' H. split; [apply segments_unquoted, names_unquoted; auto|eapply names_idempotent; eauto]. Qed.
Print Assumptions C45_idempotent.
(** Whatever the text only quotes are removed, and nothing is reordered. *)
Theorem C45_only_quotes : forall s, subsequence (remove_dot_quotes s) s /\
  (forall t, without_quotes s t -> without_quotes (remove_dot_quotes s) t).
Proof. intro s. split; [apply kept_order|]. intro t. apply kept_characters. Qed.
Print Assumptions C45_only_quotes.

(** a check used for the cases below *)
Definition dot_quoteb (s : string) : bool := contains s ("." ++ sqs) || contains s ("." ++ dqs).
Lemma dot_quote_check s : dot_quote s -> dot_quoteb s = true.
Proof.
  intros (a & q & b & HQ & ->). unfold dot_quoteb. apply orb_true_iff.
  destruct HQ as [->| ->]; [left|right]; (induction a as [|c a IH]; cbn [append contains];
    [destruct b; reflexivity|apply orb_true_iff; right; exact IH]).
Qed.
(** A name ending with a dot: a later quote, not after a dot, is removed as well. *)
Theorem C45_dot_name_refuted : exists name s, all_chars (fun c => ~ quote c) name /\ ~ dot_quote s /\
  remove_dot_quotes ("." ++ sqs ++ name ++ sqs ++ s) <> "." ++ name ++ s.
Proof.
  exists "a.", ("[?(@.b==" ++ sqs ++ "c" ++ sqs ++ ")]"). split; [|split].
  - cbn [all_chars]. repeat split; auto; intros [H|H]; vm_compute in H; discriminate.
  - intro H. apply dot_quote_check in H. vm_compute in H. discriminate.
  - vm_compute. discriminate.
Qed.
Print Assumptions C45_dot_name_refuted.
(** An empty name: removing again changes the result. *)
Theorem C45_empty_name_refuted : exists s s', unquoted false s s' /\ remove_dot_quotes s = s' /\ remove_dot_quotes s' <> s'.
Proof.
  exists ("." ++ sqs ++ sqs ++ sqs ++ "x" ++ sqs), ("." ++ sqs ++ "x" ++ sqs). split; [|split; [vm_compute; reflexivity|vm_compute; discriminate]].
  cbn [append]. apply uq_char; [discriminate|]. change (unquoted true (String sq ("" ++ String sq (sqs ++ "x" ++ sqs))) ("" ++ (sqs ++ "x" ++ sqs))).
  apply uq_name; [left; auto| |].
  - split; simpl; auto. intros [a E]. destruct a; discriminate.
  - vm_compute. repeat (apply uq_char; [discriminate|vm_compute]). apply uq_end.
Qed.
Print Assumptions C45_empty_name_refuted.

(** Cases.  $.labels.'app.kubernetes.io/name'.x["y.z"] *)
Definition quoted_path : string := "$.labels." ++ sqs ++ "app.kubernetes.io/name" ++ sqs ++ ".x[" ++ dqs ++ "y.z" ++ dqs ++ "]".
Definition plain_path : string := "$.labels.app.kubernetes.io/name.x[" ++ dqs ++ "y.z" ++ dqs ++ "]".
Lemma not_quote c : Ascii.eqb c sq = false -> Ascii.eqb c dq = false -> ~ quote c.
Proof. intros A B [->| ->]; [rewrite Ascii.eqb_refl in A|rewrite Ascii.eqb_refl in B]; discriminate. Qed.
Example C45_case_names : unquoted_names false quoted_path plain_path.
Proof.
  unfold quoted_path, plain_path. cbn [append]. 
  do 9 (apply un_char; [solve [discriminate | intros _; apply not_quote; reflexivity]|]).
  change (unquoted_names true (String sq ("app.kubernetes.io/name" ++ String sq (".x[" ++ dqs ++ "y.z" ++ dqs ++ "]")))
           ("app.kubernetes.io/name" ++ (".x[" ++ dqs ++ "y.z" ++ dqs ++ "]"))).
  apply un_name; [left; auto|discriminate| |].
  - split.
    + cbn [all_chars]. repeat split; auto; apply not_quote; reflexivity.
    + intros [a E]. do 30 (destruct a as [|? a]; [discriminate|cbn [append] in E; try discriminate; injection E as ? E]).
  - vm_compute. repeat (apply un_char; [solve [discriminate | intros _; apply not_quote; reflexivity]|vm_compute]). apply un_end.
Qed.
Example C45_case_result : remove_dot_quotes quoted_path = plain_path.
Proof. vm_compute. reflexivity. Qed.
Example C45_case_double : remove_dot_quotes ("$." ++ dqs ++ "a b" ++ dqs ++ ".c") = "$.a b.c".
Proof. vm_compute. reflexivity. Qed.
(** hypothesis of C45_plain *)
Example C45_case_plain : ~ dot_quote ("$[" ++ sqs ++ "a" ++ sqs ++ "]").
Proof.
  intro H. apply dot_quote_check in H. vm_compute in H. discriminate.
Qed.
