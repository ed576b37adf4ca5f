(** Interleaved evaluations: what runs alone gives the results of the model, and what others do
    to other message objects does not matter. *)
From Coq Require Import List String Ascii Bool Arith ZArith Lia.
From Verif Require Import Base GoStr GoFloat Types Json StrUtils Validate Prepare Parse Marshal Lifecycle Eval Check
  Spec_Tree Tree_proofs Check_proofs Concurrent Spec_Concurrent.
Import ListNotations.
Open Scope string_scope.

(** ** Running alone *)
Lemma alone_atom {A} (x : M A) e : alone (atom x) e = x e.
Proof. simpl. destruct (x e) as [[a|] e']; reflexivity. Qed.
Lemma alone_then {A B} (p : prog A) (k : A -> prog B) : forall e, alone (pthen p k) e = mbind (alone p) (fun a => alone (k a)) e.
Proof.
  revert p. fix IH 1. intros [a| |f] e; try reflexivity. cbn [pthen alone]. unfold mbind at 1. destruct (f e) as [[p'|] e'] eqn:E; [|reflexivity].
  exact (IH p' e').
Qed.
Lemma prog_rect' {A} (P : prog A -> Prop) : (forall a, P (Done a)) -> P Crashed ->
  (forall f, (forall e p e', f e = (Some p, e') -> P p) -> P (Act f)) -> forall p, P p.
Proof.
  intros HD HF HA. fix IH 1. intros [a| |f]; [apply HD|exact HF|]. apply HA. intros e p e' H.
  pose proof (f e) as X. destruct (f e) as [[p'|] e2] eqn:E; [|discriminate]. injection H as <- _. exact (IH p').
Qed.

Definition alike {A} (p : prog A) (x : M A) : Prop := forall e, alone p e = x e.
Lemma alike_done {A} (a : A) : alike (Done a) (mret a).
Proof. intro e. reflexivity. Qed.
Lemma alike_fail {A} : alike (@Crashed A) mpanic.
Proof. intro e. reflexivity. Qed.
Lemma alike_atom {A} (x : M A) : alike (atom x) x.
Proof. intro e. apply alone_atom. Qed.
Lemma alike_then {A B} (p : prog A) (k : A -> prog B) x f : alike p x -> (forall a, alike (k a) (f a)) -> alike (pthen p k) (mbind x f).
Proof.
  intros H1 H2 e. rewrite alone_then. unfold mbind. rewrite H1. destruct (x e) as [[a|] e']; [apply H2|reflexivity].
Qed.
Ltac alike := repeat first [apply alike_done | apply alike_fail | apply alike_atom | apply alike_then; [|intro] | assumption ].

Section WithLib.
Variable L : Lib.
Variable ord : order.

Lemma alike_and ps xs : Forall2 alike ps xs -> forall acc, alike (and_steps ps acc) (and_loop xs acc).
Proof.
  induction 1 as [|p x ps xs H HF IH]; intro acc; cbn [and_steps and_loop]; alike. destruct a as [[|] y]; [apply IH|alike].
Qed.
Lemma alike_or ps xs : Forall2 alike ps xs -> forall out acc, alike (or_steps ps out acc) (or_loop xs out acc).
Proof.
  induction 1 as [|p x ps xs H HF IH]; intros out acc; cbn [or_steps or_loop]; alike. destruct a as [b y]. apply IH.
Qed.
Lemma alike_any {V} (set : V -> M unit) getx all p x : alike p x -> forall vals result acc,
  alike (any_steps set getx all p vals result acc) (any_loop set getx all x vals result acc).
Proof.
  intro H. induction vals as [|v vals IH]; intros result acc; cbn [any_steps any_loop]; alike. destruct a0 as [[|] y]; [|apply IH].
  destruct getx as [g|]; alike; destruct all; alike; apply IH.
Qed.
Lemma alike_all {V} (set : V -> M unit) p x : alike p x -> forall vals, alike (all_steps set p vals) (all_loop set x vals).
Proof.
  intro H. induction vals as [|v vals IH]; cbn [all_steps all_loop]; alike. destruct a0 as [[|] y]; [apply IH|alike].
Qed.
Lemma alike_quant {V} q a (set : V -> M unit) getx p x vals : alike p x -> alike (quant_steps L q a set getx p vals) (quant_loop L q a set getx x vals).
Proof. intro H. destruct q; [apply alike_any|apply alike_all]; auto. Qed.

Theorem eval_alone n : forall e, alone (eval_steps L ord n) e = eval L ord n e.
Proof.
  change (alike (eval_steps L ord n) (eval L ord n)). induction n as [ns IH|ns IH|n IH|q a n IH| | |c|] using node_ind'; cbn [eval_steps eval]; alike.
  - apply alike_and. induction IH; simpl; constructor; auto.
  - apply alike_or. induction IH; simpl; constructor; auto.
  - destruct a as [b y]. alike.
  - destruct (m_raw a0); [|]. 2: shelve. destruct (a_prep a); [shelve|]. unfold quant_iface_steps, quant_iface. alike. apply alike_quant; auto.
    Unshelve.
    + unfold quant_bytes_steps, quant_bytes. alike. destruct a1; alike. apply alike_quant; auto.
    + unfold quant_bytes_steps, quant_bytes. alike. destruct a1; alike. apply alike_quant; auto.
Qed.

Theorem check_alone g rules : forall e, alone (check_steps L ord g rules) e = check L ord g rules e.
Proof.
  assert (HP : forall r, alike (check_prepared_steps L ord r) (check_prepared L ord r)).
  { intros r e. unfold check_prepared_steps, check_prepared. 
    rewrite alone_then. unfold mbind at 1. rewrite alone_atom. unfold rule_head, mbind, mmsg, mopt, mret.
    destruct (test_sender L r (e_msg e)) as [[|]|]; try reflexivity. cbn [negb].
    destruct (test_receiver L r (e_msg e)) as [[|]|]; try reflexivity. cbn [negb].
    destruct (match_regex L (ru_operation_regex r) (m_method (e_msg e))) as [[|]|]; try reflexivity. cbn [negb].
    destruct (test_resource L r (e_msg e)) as [[|]|]; try reflexivity. cbn [negb].
    rewrite alone_then. unfold mbind. destruct (ru_tree r) as [t|].
    - rewrite eval_alone. destruct (eval L ord t e) as [[[[|] x]|] e']; try reflexivity. cbn [negb].
      destruct (Nat.eqb (decision_of (ru_decision r)) DEFAULT); reflexivity.
    - cbn. destruct (Nat.eqb (decision_of (ru_decision r)) DEFAULT); reflexivity. }
  assert (HO : forall s, alike (check_one_rule_steps L ord g s) (check_one_rule L ord g s)).
  { intro s. unfold check_one_rule_steps, check_one_rule. alike. destruct (rs_prepared a); alike. apply HP. }
  change (alike (check_steps L ord g rules) (check L ord g rules)). unfold check_steps, check. alike.
  induction rules as [|s rules IH]; cbn [run_rules_steps run_rules]; [alike|]. apply alike_then; [apply HO|]. intros [x s']. alike.
Qed.
End WithLib.

(** ** Pools *)
Lemma nth_put {A} i j (x : A) l : nth_error (put i x l) j = if Nat.eqb i j then match nth_error l j with Some _ => Some x | None => None end else nth_error l j.
Proof.
  revert i j. induction l as [|y l IH]; intros [|i] [|j]; simpl; auto. destruct (Nat.eqb i j); auto.
Qed.

(** one goroutine, advancing on its own *)
Definition state (A : Type) := (prog A * est)%type.
Definition one {A} (s : state A) : state A :=
  match s with
  | (Act f, e) => match f e with (r, e') => (match r with Some q => q | None => Crashed end, e') end
  | s => s
  end.
Fixpoint many {A} (k : nat) (s : state A) : state A := match k with 0 => s | S k' => many k' (one s) end.

Definition at_thread {A} (p : pool A) (i : nat) (s : state A) : Prop :=
  exists a, nth_error (p_threads p) i = Some (mkThread a (e_tick (snd s)) (fst s)) /\ p_heap p a = e_msg (snd s).
Lemma advance_addr {A} (p : pool A) j i t : nth_error (p_threads (advance j p)) i = Some t ->
  exists t0, nth_error (p_threads p) i = Some t0 /\ th_addr t0 = th_addr t /\ (reads_only (th_prog t0) -> reads_only (th_prog t)).
Proof.
  unfold advance. destruct (nth_error (p_threads p) j) as [[a tk [x| |f]]|] eqn:EJ; try (intro H; exists t; auto; fail).
  destruct (f (mkEst (p_heap p a) tk)) as [r e] eqn:EF. simpl. rewrite nth_put. destruct (Nat.eqb j i) eqn:E.
  - apply Nat.eqb_eq in E. subst i. rewrite EJ. intro H. injection H as <-. eexists. split; [reflexivity|]. split; auto. simpl.
    intro HR. inversion HR as [| |? _ HP]; subst. destruct r as [q|]; [eapply HP; eauto|constructor].
  - intro H. exists t. auto.
Qed.
Lemma advance_undisturbed {A} (p : pool A) j i : undisturbed p i -> undisturbed (advance j p) i.
Proof.
  intros HU ti tk k HI HK HN HA. apply advance_addr in HI. apply advance_addr in HK.
  destruct HI as (ti0 & HI & EI & _), HK as (tk0 & HK & EK & HR). apply HR. eapply HU; eauto. congruence.
Qed.

Lemma advance_self {A} (p : pool A) i s : at_thread p i s -> at_thread (advance i p) i (one s).
Proof.
  intros (a & HT & HH). destruct s as [q [m t]]. simpl in *. unfold advance. rewrite HT. destruct q as [x| |f]; try (exists a; auto; fail).
  rewrite HH. simpl. destruct (f (mkEst m t)) as [r e] eqn:EF. exists a. simpl. rewrite nth_put, Nat.eqb_refl, HT. split; auto. unfold write. rewrite Nat.eqb_refl. auto.
Qed.
Lemma advance_other {A} (p : pool A) i j s : j <> i -> undisturbed p i -> at_thread p i s -> at_thread (advance j p) i s.
Proof.
  intros HN HU (a & HT & HH). unfold advance. destruct (nth_error (p_threads p) j) as [[b tk [x| |f]]|] eqn:EJ; try (exists a; auto; fail).
  destruct (f (mkEst (p_heap p b) tk)) as [r e] eqn:EF. exists a. simpl. rewrite nth_put. apply Nat.eqb_neq in HN. rewrite HN. split; auto.
  unfold write. destruct (Nat.eqb b a) eqn:EB; auto. apply Nat.eqb_eq in EB. subst b. apply Nat.eqb_neq in HN.
  pose proof (HU _ _ _ HT EJ HN eq_refl) as HR. simpl in HR. inversion HR as [| |? HM _]; subst. specialize (HM (mkEst (p_heap p a) tk)). rewrite EF in HM. simpl in HM. congruence.
Qed.
Lemma interleave_state {A} schedule : forall (p : pool A) i s, undisturbed p i -> at_thread p i s ->
  at_thread (interleave schedule p) i (many (turns i schedule) s).
Proof.
  induction schedule as [|j l IH]; intros p i s HU HA; simpl; auto. destruct (Nat.eqb i j) eqn:E.
  - apply Nat.eqb_eq in E. subst j. simpl. apply IH; [apply advance_undisturbed; auto|apply advance_self; auto].
  - apply Nat.eqb_neq in E. simpl. apply IH; [apply advance_undisturbed; auto|apply advance_other; auto].
Qed.

(** steps of one goroutine against its uninterrupted run *)
Lemma alone_one {A} (s : state A) : match fst s with Crashed => True | _ => alone (fst (one s)) (snd (one s)) = alone (fst s) (snd s) end.
Proof.
  destruct s as [[a| |f] e]; simpl; auto. destruct (f e) as [[q|] e']; reflexivity.
Qed.
Lemma alone_many {A} k : forall s : state A, alone (fst (many k s)) (snd (many k s)) = alone (fst s) (snd s).
Proof.
  induction k as [|k IH]; intro s; simpl; auto. rewrite IH. pose proof (alone_one s) as H. destruct s as [[a| |f] e]; auto.
Qed.
Lemma many_ends {A} (p : prog A) : forall e, exists k, forall k', k <= k' ->
  match alone p e with
  | (Some r, e') => many k' (p, e) = (Done r, e')
  | (None, e') => many k' (p, e) = (Crashed, e')
  end.
Proof.
  induction p as [a| |f IH] using prog_rect'; intro e.
  - exists 0. intros k' _. simpl. induction k'; simpl; auto.
  - exists 0. intros k' _. simpl. induction k'; simpl; auto.
  - cbn [alone]. destruct (f e) as [[q|] e'] eqn:EF.
    + destruct (IH _ _ _ EF e') as [k HK]. exists (S k). intros [|k'] HL; [lia|]. specialize (HK k' ltac:(lia)). cbn [many one]. rewrite EF. exact HK.
    + exists 1. intros [|k'] HL; [lia|]. cbn [many one]. rewrite EF. clear. induction k'; simpl; auto.
Qed.

(** ** Results *)
Theorem undisturbed_result {A} (p : pool A) i schedule a t q : undisturbed p i ->
  nth_error (p_threads p) i = Some (mkThread a t q) ->
  (forall r, returned (interleave schedule p) i r ->
     exists e, alone q (mkEst (p_heap p a) t) = (Some r, e) /\ p_heap (interleave schedule p) a = e_msg e) /\
  (panicked (interleave schedule p) i -> fst (alone q (mkEst (p_heap p a) t)) = None).
Proof.
  intros HU HT. assert (HA : at_thread p i (q, mkEst (p_heap p a) t)) by (exists a; auto).
  pose proof (interleave_state schedule p i _ HU HA) as (b & HB & HH). pose proof (alone_many (turns i schedule) (q, mkEst (p_heap p a) t)) as HM.
  assert (EB : b = a).
  { assert (G : forall l (p : pool A) c, (exists x y, nth_error (p_threads p) i = Some (mkThread c x y)) -> exists x y, nth_error (p_threads (interleave l p)) i = Some (mkThread c x y)).
    { clear. induction l as [|j l IH]; intros p c HX; simpl; auto. apply IH. destruct HX as (x & y & HX). unfold advance.
      destruct (nth_error (p_threads p) j) as [[b tk [z| |f]]|] eqn:EJ; eauto. destruct (f (mkEst (p_heap p b) tk)) as [r e]. simpl. rewrite nth_put.
      destruct (Nat.eqb j i) eqn:E; eauto. apply Nat.eqb_eq in E. subst j. rewrite HX in *. injection EJ as <- <- _. eauto. }
    destruct (G schedule p a) as (x & y & HG); [eauto|]. rewrite HG in HB. injection HB; auto. }
  subst b. destruct (many (turns i schedule) (q, mkEst (p_heap p a) t)) as [q' e'] eqn:EM. simpl in *. split.
  - intros r (c & tk & HR). rewrite HR in HB. injection HB as -> -> <-. exists e'. split; auto.
  - intros (c & tk & HR). rewrite HR in HB. injection HB as -> -> <-. rewrite <- HM. reflexivity.
Qed.
Theorem undisturbed_ends {A} (p : pool A) i a t q : undisturbed p i -> nth_error (p_threads p) i = Some (mkThread a t q) ->
  exists k, forall schedule, k <= turns i schedule ->
    match alone q (mkEst (p_heap p a) t) with
    | (Some r, _) => returned (interleave schedule p) i r
    | (None, _) => panicked (interleave schedule p) i
    end.
Proof.
  intros HU HT. assert (HA : at_thread p i (q, mkEst (p_heap p a) t)) by (exists a; auto).
  destruct (many_ends q (mkEst (p_heap p a) t)) as [k HK]. exists k. intros schedule HL. specialize (HK _ HL).
  pose proof (interleave_state schedule p i _ HU HA) as (b & HB & HH).
  destruct (alone q (mkEst (p_heap p a) t)) as [[r|] e']; rewrite HK in HB; simpl in HB; do 2 eexists; exact HB.
Qed.

(** ** Evaluations that only read *)
Definition keeps {A} (x : M A) : Prop := forall e, e_msg (snd (x e)) = e_msg e.
Lemma keeps_ret {A} (a : A) : keeps (mret a). Proof. intro e. reflexivity. Qed.
Lemma keeps_panic {A} : keeps (@mpanic A). Proof. intro e. reflexivity. Qed.
Lemma keeps_opt {A} (o : option A) : keeps (mopt o). Proof. intro e. reflexivity. Qed.
Lemma keeps_msg : keeps mmsg. Proof. intro e. reflexivity. Qed.
Lemma keeps_range {A} ord (m : list (string * A)) : keeps (mrange ord m). Proof. intro e. reflexivity. Qed.
Lemma keeps_bind {A B} (x : M A) (f : A -> M B) : keeps x -> (forall a, keeps (f a)) -> keeps (mbind x f).
Proof.
  intros H1 H2 e. unfold mbind. specialize (H1 e). destruct (x e) as [[a|] e']; simpl in *; auto. rewrite H2. auto.
Qed.
Ltac keep := repeat first [apply keeps_ret | apply keeps_panic | apply keeps_opt | apply keeps_msg | apply keeps_range |
  apply keeps_bind; [|intro] | match goal with |- keeps (if ?b then _ else _) => destruct b | |- keeps (match ?b with _ => _ end) => destruct b end ].

Lemma keeps_condition L ord c : keeps (test_condition L ord c).
Proof. unfold test_condition. apply keeps_bind; [keep|]. intro m. cbv zeta. keep; unfold test_json_iface, get_key_value_iface; cbv zeta; keep. Qed.

Lemma only_atom {A} (x : M A) : keeps x -> reads_only (atom x).
Proof.
  intro H. constructor.
  - intro e. specialize (H e). destruct (x e) as [[a|] e']; auto.
  - intros e p e' E. destruct (x e) as [[a|] e2]; [|discriminate]. injection E as <- _. constructor.
Qed.
Lemma only_then {A B} (p : prog A) (k : A -> prog B) : reads_only p -> (forall a, reads_only (k a)) -> reads_only (pthen p k).
Proof.
  intros HP HK. induction HP as [a| |f HM HP IH]; simpl; auto; constructor.
  - intro e. specialize (HM e). destruct (f e) as [[q|] e']; auto.
  - intros e q e' E. destruct (f e) as [[q0|] e2] eqn:EF; [|discriminate]. injection E as <- _. eapply IH; eauto.
Qed.
Lemma flat_ind' {L} (P : node L -> Prop) : (forall ns, Forall P ns -> P (NAnd ns)) -> (forall ns, Forall P ns -> P (NOr ns)) ->
  (forall n, P n -> P (NNot n)) -> P NTrue -> P NFalse -> (forall c, P (NCond c)) -> forall n, flat n -> P n.
Proof.
  intros H1 H2 H3 H4 H5 H6. fix IH 2. intros n [ns HF|ns HF|m HF| | |c]; auto.
  - apply H1. induction HF; constructor; auto.
  - apply H2. induction HF; constructor; auto.
Qed.
Theorem flat_reads L ord n : flat n -> reads_only (eval_steps L ord n).
Proof.
  revert n. apply (flat_ind' (fun n => reads_only (eval_steps L ord n))); cbn [eval_steps].
  - intros ns HF. generalize (@nil (list (string * iface))). induction HF as [|m ns H HF IH]; intro acc; simpl; [constructor|].
    apply only_then; auto. intros [[|] x]; [apply IH|constructor].
  - intros ns HF. generalize (@nil (list (string * iface))). generalize false. induction HF as [|m ns H HF IH]; intros out acc; simpl; [constructor|].
    apply only_then; auto. intros [b x]. apply IH.
  - intros m H. apply only_then; auto. intros [b x]. constructor.
  - constructor.
  - constructor.
  - intro c. apply only_atom, keeps_condition.
Qed.

Fixpoint flatb {L} (n : node L) : bool :=
  match n with
  | NAnd ns | NOr ns => forallb flatb ns
  | NNot n' => flatb n'
  | NQuant _ _ _ | NNil => false
  | _ => true
  end.
Lemma flatb_flat L (n : node L) : flatb n = true -> flat n.
Proof.
  induction n as [ns IH|ns IH|n IH|q a n IH| | |c|] using node_ind'; simpl; intro H; try discriminate; constructor; auto.
  - induction IH as [|m ns HM HF IH']; constructor; simpl in H; apply andb_prop in H; destruct H; auto.
  - induction IH as [|m ns HM HF IH']; constructor; simpl in H; apply andb_prop in H; destruct H; auto.
Qed.

(** ** Calls of Check *)
Lemma calls_apart L h (cs : list (call L)) i c : NoDup (map cl_addr cs) -> nth_error cs i = Some c -> undisturbed (calls_pool L h cs) i.
Proof.
  intros HN HC ti tj j HI HJ HD HA. exfalso. apply HD. simpl in HI, HJ. rewrite nth_error_map in HI, HJ. rewrite HC in HI. simpl in HI. injection HI as <-.
  destruct (nth_error cs j) as [d|] eqn:EJ; [|discriminate]. simpl in HJ. injection HJ as <-. simpl in HA.
  rewrite NoDup_nth_error in HN. apply HN.
  - rewrite map_length. apply nth_error_Some. congruence.
  - rewrite !nth_error_map, HC, EJ. simpl. congruence.
Qed.
Theorem calls_result L h (cs : list (call L)) i c schedule : NoDup (map cl_addr cs) -> nth_error cs i = Some c ->
  (forall r, returned (interleave schedule (calls_pool L h cs)) i r ->
     fst (check L (cl_ord c) (cl_lists c) (cl_rules c) (mkEst (h (cl_addr c)) 0)) = Some r /\
     p_heap (interleave schedule (calls_pool L h cs)) (cl_addr c) = h (cl_addr c)) /\
  (panicked (interleave schedule (calls_pool L h cs)) i ->
     fst (check L (cl_ord c) (cl_lists c) (cl_rules c) (mkEst (h (cl_addr c)) 0)) = None).
Proof.
  intros HN HC.
  assert (HU : undisturbed (calls_pool L h cs) i) by (eapply calls_apart; eauto).
  assert (HT : nth_error (p_threads (calls_pool L h cs)) i = Some (mkThread (cl_addr c) 0 (check_steps L (cl_ord c) (cl_lists c) (cl_rules c)))).
  { simpl. rewrite nth_error_map, HC. reflexivity. }
  destruct (undisturbed_result _ _ schedule _ _ _ HU HT) as [H1 H2]. split.
  - intros r HR. destruct (H1 r HR) as (e & HE & HH). rewrite check_alone in HE. simpl p_heap in HE. rewrite HE. split; auto.
    rewrite HH. apply check_message in HE. auto.
  - intro HP. apply H2 in HP. rewrite check_alone in HP. auto.
Qed.
Theorem calls_end L h (cs : list (call L)) i c : NoDup (map cl_addr cs) -> nth_error cs i = Some c ->
  exists k, forall schedule, k <= turns i schedule ->
    match fst (check L (cl_ord c) (cl_lists c) (cl_rules c) (mkEst (h (cl_addr c)) 0)) with
    | Some r => returned (interleave schedule (calls_pool L h cs)) i r
    | None => panicked (interleave schedule (calls_pool L h cs)) i
    end.
Proof.
  intros HN HC.
  assert (HU : undisturbed (calls_pool L h cs) i) by (eapply calls_apart; eauto).
  assert (HT : nth_error (p_threads (calls_pool L h cs)) i = Some (mkThread (cl_addr c) 0 (check_steps L (cl_ord c) (cl_lists c) (cl_rules c)))).
  { simpl. rewrite nth_error_map, HC. reflexivity. }
  destruct (undisturbed_ends _ _ _ _ _ HU HT) as [k HK]. exists k. intros schedule HL. specialize (HK schedule HL).
  rewrite check_alone in HK. simpl p_heap in HK.
  destruct (check L (cl_ord c) (cl_lists c) (cl_rules c) (mkEst (h (cl_addr c)) 0)) as [[r|] e]; exact HK.
Qed.
