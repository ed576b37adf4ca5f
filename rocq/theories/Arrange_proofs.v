(** Proofs about the elements of parsed documents and of raw arrays. *)
From Coq Require Import List String Ascii Bool Arith ZArith Lia.
From Verif Require Import Base GoStr GoStr_facts GoFloat Types Json StrUtils Validate Prepare Parse Marshal Eval
  Spec_Tree Spec_Glob Spec_Json Json_proofs Spec_Split Split_proofs Tree_proofs Tree_truth.
Import ListNotations.
Open Scope string_scope.

Theorem split_decoded L vs t : json_parse L t = Some (GArr vs) -> Forall (fun v => exists m, v = GMapS m) vs -> braceless_strings t ->
  exists ts, split_objects t = Some ts /\ Forall2 (fun v o => json_parse L o = Some v) vs ts.
Proof.
  intros HP HF HB. apply parse_iff in HP. destruct HP as (w1 & t' & w2 & H1 & H2 & HT & ->).
  destruct (split_array L vs w1 t' w2 H1 H2 HT HF HB) as (ts & HS & H3 & _). exists ts. split; auto.
  clear -H3. induction H3; constructor; auto. apply parse_iff. exists "", y, "". repeat split; auto. rewrite append_nil_r. auto.
Qed.

(** ** Parsed documents *)
(** ArrangeArrayInterface panics exactly on scalars *)
Theorem arrange_panics ord v s : fst (arrange ord v s) = None <-> (forall m, v <> GMapS m) /\ (forall l, v <> GArr l) /\ v <> GNil.
Proof.
  unfold arrange. destruct v; cbn; split; try discriminate; try (intros (A & B & C); exfalso; try (eapply A; reflexivity); try (eapply B; reflexivity); congruence);
    try (intros _; repeat split; discriminate); auto.
Qed.
Theorem arrange_array ord l s : exists es, arrange ord (GArr l) s = (Some es, s) /\
  ((exists ls, l = map GArr ls /\ es = List.concat ls) \/ ((~ exists ls, l = map GArr ls) /\ es = l)).
Proof.
  unfold arrange. destruct (flatten_arrays l) as [r|] eqn:E.
  - exists r. split; [reflexivity|]. left. apply flatten_some; auto.
  - exists l. split; [reflexivity|]. right. split; auto. apply flatten_none; auto.
Qed.
Theorem arrange_flat ord l s : Forall (fun v => forall x, v <> GArr x) l -> arrange ord (GArr l) s = (Some l, s).
Proof.
  intro H. destruct (arrange_array ord l s) as (es & E & [(ls & -> & ->)|[_ ->]]); auto.
  destruct ls as [|x ls]; auto. inversion H; subst. exfalso. eapply H2. reflexivity.
Qed.


Theorem arrange_idempotent ord l s es s' : arrange ord (GArr l) s = (Some es, s') ->
  (forall x v y, In (GArr x) l -> In v x -> v <> GArr y) -> arrange ord (GArr es) s' = (Some es, s').
Proof.
  intros H HN. destruct (arrange_array ord l s) as (es' & E & HC). rewrite E in H. injection H as -> ->.
  destruct HC as [(ls & -> & ->)|[_ ->]]; [|auto]. apply arrange_flat. apply Forall_forall. intros v Hv y.
  apply in_concat in Hv. destruct Hv as (x & Hx & Hv). apply (HN x v y); auto. apply in_map. auto.
Qed.
