(** The outcomes a computation can have over all legal iteration orders of maps, computed part by part. *)
From Coq Require Import List String Ascii Bool Arith ZArith Permutation Lia.
From Verif Require Import Base GoStr GoStr_facts GoFloat Types Json StrUtils Validate Prepare Eval
  Spec_Tree Spec_Extra Tree_proofs Tree_truth Tree_laws Leaf_laws.
Import ListNotations.
Open Scope string_scope.

(** ** Moving a run to other ticks *)
(** the run depends only on the orders of the iterations it makes *)
Definition portable {A} (f : order -> M A) : Prop :=
  forall ord s r s', f ord s = (r, s') -> exists k, e_tick s' = (e_tick s + k)%nat /\
    forall ord' t', (forall i ks, (i < k)%nat -> ord' (t' + i)%nat ks = ord (e_tick s + i)%nat ks) ->
      f ord' (mkEst (e_msg s) t') = (r, mkEst (e_msg s') (t' + k)%nat).

Lemma portable_still {A} (x : M A) : (forall s, snd (x s) = mkEst (e_msg (snd (x s))) (e_tick s)) ->
  (forall m t t', fst (x (mkEst m t)) = fst (x (mkEst m t')) /\ e_msg (snd (x (mkEst m t))) = e_msg (snd (x (mkEst m t')))) ->
  portable (fun _ => x).
Proof.
  intros H1 H2 ord s r s' H. exists 0%nat. pose proof (H1 s) as E. rewrite H in E. simpl in E.
  split; [rewrite E; simpl; lia|]. intros ord' t' _. rewrite Nat.add_0_r.
  destruct (H2 (e_msg s) (e_tick s) t') as [E1 E2]. rewrite <- est_eta in E1, E2. rewrite H in E1, E2. simpl in E1, E2.
  pose proof (H1 (mkEst (e_msg s) t')) as E3. simpl in E3. rewrite <- E2 in E3.
  destruct (x (mkEst (e_msg s) t')) as [r1 s1]. simpl in *. congruence.
Qed.
Lemma portable_ret {A} (a : A) : portable (fun _ => mret a).
Proof. apply portable_still; simpl; auto. intro s. apply est_eta. Qed.
Lemma portable_opt {A} (a : option A) : portable (fun _ => mopt a).
Proof. apply portable_still; simpl; auto. intro s. apply est_eta. Qed.
Lemma portable_panic {A} : portable (fun _ => @mpanic A).
Proof. apply portable_still; simpl; auto. intro s. apply est_eta. Qed.
Lemma portable_msg : portable (fun _ => mmsg).
Proof. apply portable_still; simpl; auto. intro s. apply est_eta. Qed.
Lemma portable_set m : portable (fun _ => mset m).
Proof. apply portable_still; simpl; auto. Qed.
Lemma portable_range {A} (x : list (string * A)) : portable (fun ord => mrange ord x).
Proof.
  intros ord s r s' H. unfold mrange in H. injection H; intros <- <-. exists 1%nat. simpl. split; [lia|].
  intros ord' t' HO. unfold mrange. simpl. specialize (HO 0%nat (keys x) ltac:(lia)). rewrite !Nat.add_0_r in HO.
  rewrite HO. replace (t' + 1)%nat with (S t') by lia. auto.
Qed.
Lemma portable_bind {A B} (f : order -> M A) (g : A -> order -> M B) :
  portable f -> (forall a, portable (g a)) -> portable (fun ord => mbind (f ord) (fun a => g a ord)).
Proof.
  intros HF HG ord s r s' H. unfold mbind in H. destruct (f ord s) as [[a|] s1] eqn:E1.
  - destruct (HF _ _ _ _ E1) as (k1 & K1 & R1). destruct (HG a _ _ _ _ H) as (k2 & K2 & R2).
    exists (k1 + k2)%nat. split; [lia|]. intros ord' t' HO. unfold mbind. rewrite R1.
    + rewrite R2.
      * f_equal. f_equal. lia.
      * intros i ks HI. replace (t' + k1 + i)%nat with (t' + (k1 + i))%nat by lia. rewrite HO by lia. f_equal. lia.
    + intros i ks HI. apply HO. lia.
  - injection H; intros <- <-. destruct (HF _ _ _ _ E1) as (k1 & K1 & R1). exists k1. split; auto.
    intros ord' t' HO. unfold mbind. rewrite R1; auto.
Qed.

(** ** What can happen *)
(** under some legal order, [f] on message [m] has the outcome [r] ([None]: a panic) and leaves [m'] *)
Definition can {A} (f : order -> M A) (m : message) (r : option A) (m' : message) : Prop :=
  exists ord t s, fair ord /\ f ord (mkEst m t) = (r, s) /\ e_msg s = m'.

Lemma fair_id : fair (fun _ ks => ks).
Proof. intros n ks. apply Permutation_refl. Qed.

Lemma can_still {A} (x : M A) m r m' : (forall t t', fst (x (mkEst m t)) = fst (x (mkEst m t')) /\ e_msg (snd (x (mkEst m t))) = e_msg (snd (x (mkEst m t')))) ->
  (can (fun _ => x) m r m' <-> r = fst (x (mkEst m 0)) /\ m' = e_msg (snd (x (mkEst m 0)))).
Proof.
  intro H. split.
  - intros (ord & t & s & _ & E & <-). destruct (H t 0%nat) as [E1 E2]. rewrite E in E1, E2. simpl in E1, E2. auto.
  - intros [-> ->]. exists (fun _ ks => ks), 0%nat, (snd (x (mkEst m 0))). split; [apply fair_id|].
    split; auto. destruct (x (mkEst m 0)); auto.
Qed.
Lemma can_ret {A} (a : A) m r m' : can (fun _ => mret a) m r m' <-> r = Some a /\ m' = m.
Proof. rewrite can_still; simpl; auto. tauto. Qed.
Lemma can_opt {A} (a : option A) m r m' : can (fun _ => mopt a) m r m' <-> r = a /\ m' = m.
Proof. rewrite can_still; simpl; auto. tauto. Qed.
Lemma can_panic {A} m r m' : can (fun _ => @mpanic A) m r m' <-> r = None /\ m' = m.
Proof. rewrite can_still; simpl; auto. tauto. Qed.
Lemma can_msg m r m' : can (fun _ => mmsg) m r m' <-> r = Some m /\ m' = m.
Proof. rewrite can_still; simpl; auto. tauto. Qed.
Lemma can_set x m r m' : can (fun _ => mset x) m r m' <-> r = Some tt /\ m' = x.
Proof. rewrite can_still; simpl; auto. tauto. Qed.

Definition strings_eq_dec : forall a b : list string, {a = b} + {a <> b} := list_eq_dec string_dec.
Lemma can_range {A} (x : list (string * A)) m r m' :
  can (fun ord => mrange ord x) m r m' <-> (exists ks, Permutation ks (keys x) /\ r = Some ks) /\ m' = m.
Proof.
  split.
  - intros (ord & t & s & HF & E & <-). unfold mrange in E. injection E; intros <- <-. simpl. split; auto.
    exists (ord t (keys x)). auto.
  - intros [(ks & HP & ->) ->].
    exists (fun _ l => if strings_eq_dec l (keys x) then ks else l), 0%nat, (mkEst m 1). repeat split.
    + intros n l. destruct (strings_eq_dec l (keys x)) as [->|]; auto.
    + unfold mrange. simpl. destruct (strings_eq_dec (keys x) (keys x)); [auto|congruence].
Qed.

Lemma can_bind {A B} (f : order -> M A) (g : A -> order -> M B) m r m' :
  portable f -> (forall a, portable (g a)) ->
  (can (fun ord => mbind (f ord) (fun a => g a ord)) m r m' <->
   (exists a m1, can f m (Some a) m1 /\ can (g a) m1 r m') \/ (r = None /\ can f m None m')).
Proof.
  intros HF HG. split.
  - intros (ord & t & s & HO & H & <-). unfold mbind in H. destruct (f ord (mkEst m t)) as [[a|] s1] eqn:E1.
    + left. exists a, (e_msg s1). split; [exists ord, t, s1; auto|].
      exists ord, (e_tick s1), s. rewrite <- est_eta. auto.
    + injection H; intros <- <-. right. split; auto. exists ord, t, s1. auto.
  - intros [(a & m1 & (o1 & t1 & s1 & F1 & E1 & M1) & (o2 & t2 & s2 & F2 & E2 & M2))|[-> (o1 & t1 & s1 & F1 & E1 & M1)]].
    + destruct (HF _ _ _ _ E1) as (k1 & K1 & R1). destruct (HG a _ _ _ _ E2) as (k2 & K2 & R2). simpl in *.
      set (o := fun i => if (i <? k1)%nat then o1 (t1 + i)%nat else o2 (t2 + (i - k1))%nat).
      exists o, 0%nat, (mkEst m' (k1 + k2)%nat). repeat split.
      * intros i ks. unfold o. destruct (i <? k1)%nat; auto.
      * unfold mbind. rewrite (R1 o 0%nat).
        -- rewrite M1. rewrite (R2 o (0 + k1)%nat).
           ++ rewrite M2. f_equal.
           ++ intros i ks HI. unfold o. simpl. destruct (k1 + i <? k1)%nat eqn:EL; [apply Nat.ltb_lt in EL; lia|].
              f_equal. lia.
        -- intros i ks HI. unfold o. simpl. apply Nat.ltb_lt in HI. rewrite HI. auto.
    + exists o1, t1, s1. split; [auto|]. split; [|auto]. unfold mbind. rewrite E1. auto.
Qed.

Create HintDb port.
#[export] Hint Resolve portable_ret portable_opt portable_panic portable_msg portable_set portable_range : port.
Ltac port := repeat first
  [ solve [auto with port]
  | match goal with |- forall _, portable _ => intros ? end
  | apply portable_bind; [|intros ?]
  | match goal with |- portable (fun ord => match ?x with _ => _ end) => destruct x end
  | match goal with |- portable (fun ord => (let '(_, _) := ?x in _)) => destruct x end
  | match goal with |- portable (fun _ => if ?b then _ else _) => destruct b end ].

Section WithLib.
Variable L : Lib.
Notation cond := (cond L).
Notation node := (node L).

(** ** Every part of the evaluator is portable *)
Lemma portable_key_value c q v : portable (fun ord => get_key_value_iface L ord c q v).
Proof. unfold get_key_value_iface. destruct v; port. Qed.
#[local] Hint Resolve portable_key_value : port.

Lemma portable_json c q m : portable (fun ord => test_json_iface L ord c q m).
Proof. unfold test_json_iface. port. Qed.
#[local] Hint Resolve portable_json : port.

Lemma portable_condition c : portable (fun ord => test_condition L ord c).
Proof. unfold test_condition. port. Qed.

Lemma portable_arrange v : portable (fun ord => arrange ord v).
Proof. unfold arrange. destruct v; port. Qed.
#[local] Hint Resolve portable_arrange : port.
Lemma portable_query_all qs d : portable (fun ord => query_all L ord qs d).
Proof. induction qs as [|q qs IH]; simpl; port. Qed.
#[local] Hint Resolve portable_query_all : port.
Lemma portable_elements_iface a : portable (fun ord => elements_iface L ord a).
Proof. unfold elements_iface. port. Qed.
Lemma portable_objects_of_map d : portable (fun ord => objects_of_map L ord d).
Proof. unfold objects_of_map. port. Qed.
#[local] Hint Resolve portable_objects_of_map : port.
Lemma portable_elements_bytes a : portable (fun ord => elements_bytes L ord a).
Proof. unfold elements_bytes. port. Qed.
#[local] Hint Resolve portable_elements_iface portable_elements_bytes : port.

Lemma portable_and es : Forall portable es -> forall acc, portable (fun ord => and_loop (map (fun e => e ord) es) acc).
Proof. induction 1 as [|e es HE HES IH]; intro acc; simpl; port. Qed.
Lemma portable_or es : Forall portable es -> forall out acc, portable (fun ord => or_loop (map (fun e => e ord) es) out acc).
Proof. induction 1 as [|e es HE HES IH]; intros out acc; simpl; port. Qed.
Lemma portable_raw_relative v : portable (fun _ => set_raw_relative v).
Proof. unfold set_raw_relative. port. Qed.
Lemma portable_json_relative v : portable (fun _ => set_json_relative v).
Proof. unfold set_json_relative. port. Qed.
#[local] Hint Resolve portable_raw_relative portable_json_relative : port.

Lemma portable_any {V} (set : V -> M unit) getx all inner vals :
  (forall v, portable (fun _ => set v)) -> (forall g, getx = Some g -> portable (fun _ => g)) -> portable inner ->
  forall result acc, portable (fun ord => any_loop set getx all (inner ord) vals result acc).
Proof.
  intros HS HG HI. induction vals as [|v vals IH]; intros result acc; simpl; port.
Qed.
Lemma portable_all {V} (set : V -> M unit) inner vals :
  (forall v, portable (fun _ => set v)) -> portable inner -> portable (fun ord => all_loop set (inner ord) vals).
Proof. intros HS HI. induction vals as [|v vals IH]; simpl; port. Qed.
Lemma portable_quant {V} q a (set : V -> M unit) getx inner vals :
  (forall v, portable (fun _ => set v)) -> portable (fun _ => getx) -> portable inner ->
  portable (fun ord => quant_loop L q a set getx (inner ord) vals).
Proof.
  intros HS HG HI. destruct q; simpl.
  - apply portable_any; auto. destruct (r_paths (a_ret a)); intros g E; [|discriminate]. injection E; intros <-. auto.
  - apply portable_all; auto.
Qed.

Lemma portable_eval n : portable (fun ord => eval L ord n).
Proof.
  induction n using node_ind'; simpl; auto with port.
  - assert (E : forall ord, map (eval L ord) ns = map (fun e : order -> M (bool * extra) => e ord) (map (fun n ord => eval L ord n) ns)).
    { intro ord. rewrite map_map. auto. }
    intros ord s r s' H0. rewrite E in H0.
    destruct (portable_and (map (fun n ord => eval L ord n) ns)) with (acc := @nil (list (string * iface))) (ord := ord) (s := s) (r := r) (s' := s') as (k & K1 & K2); auto.
    { apply Forall_map_iff. eapply Forall_impl; [|exact H]. auto. }
    exists k. split; auto. intros ord' t' HO. rewrite E. auto.
  - assert (E : forall ord, map (eval L ord) ns = map (fun e : order -> M (bool * extra) => e ord) (map (fun n ord => eval L ord n) ns)).
    { intro ord. rewrite map_map. auto. }
    intros ord s r s' H0. rewrite E in H0.
    destruct (portable_or (map (fun n ord => eval L ord n) ns)) with (out := false) (acc := @nil (list (string * iface))) (ord := ord) (s := s) (r := r) (s' := s') as (k & K1 & K2); auto.
    { apply Forall_map_iff. eapply Forall_impl; [|exact H]. auto. }
    exists k. split; auto. intros ord' t' HO. rewrite E. auto.
  - port.
  - apply portable_bind; [auto with port|]. intro m.
    assert (PI : portable (fun ord => quant_iface L ord q a (eval L ord n))).
    { unfold quant_iface. port. apply portable_quant; auto with port. port. }
    assert (PB : portable (fun ord => quant_bytes L ord q a (eval L ord n))).
    { unfold quant_bytes. port. apply portable_quant; auto with port. port. }
    destruct (m_raw m); [destruct (a_prep a)|]; auto.
  - apply portable_condition.
Qed.

(** ** Elements *)
Lemma can_arrange v es m : arranged v es -> can (fun ord => arrange ord v) m (Some es) m.
Proof.
  intro H. destruct H as [o es H| |ls|l H]; unfold arrange.
  - destruct H as (ks & HP & HF). rewrite can_bind by port. left. exists ks, m. split; [apply can_range; eauto|].
    apply can_ret. split; auto. f_equal. unfold singletons. clear HP. induction HF as [|k e ks es (x & E & ->) HF IH]; simpl; auto.
    rewrite E. f_equal; auto.
  - apply can_ret. auto.
  - apply can_ret. split; auto. f_equal. assert (E : flatten_arrays (map GArr ls) = Some (List.concat ls)).
    { induction ls as [|x ls IH]; simpl; auto. rewrite IH. auto. }
    rewrite E. auto.
  - apply can_ret. split; auto. f_equal. destruct (flatten_arrays l) as [r|] eqn:E; auto.
    apply flatten_some in E. destruct E as (ls & -> & _). exfalso. eauto.
Qed.

Lemma can_query_all qs doc parts m :
  Forall2 (fun q part => exists f, q = Some f /\ arranged (fst (jp_query L f doc)) part) qs parts ->
  can (fun ord => query_all L ord qs (Some doc)) m (Some (List.concat parts)) m.
Proof.
  induction 1 as [|q part qs parts (f & -> & HA) HF IH]; simpl.
  - apply can_ret. auto.
  - rewrite can_bind by port. left. exists part, m. split; [apply can_arrange; auto|].
    rewrite can_bind by port. left. exists (List.concat parts), m. split; auto. apply can_ret. auto.
Qed.

Lemma can_elements_iface a m vs : a_prep a <> [] -> selected L a m vs -> can (fun ord => elements_iface L ord a) m (Some vs) m.
Proof.
  intros HN HS. unfold elements_iface. rewrite can_bind by port. left. exists m, m. split; [apply can_msg; auto|].
  unfold selected in HS. destruct (String.eqb (a_parent a) "$RELATIVE*") eqn:EE.
  - destruct HS as (o & HM & ks & HP & HF).
    assert (ER : relative_parent (a_parent a) = true).
    { apply relative_parent_spec. right. left. apply String.eqb_eq. auto. }
    rewrite ER, HM. rewrite can_bind by port. left. exists ks, m. split; [apply can_range; eauto|].
    apply can_ret. split; auto. f_equal. unfold singletons. clear HP. induction HF as [|k e ks es (x & E & ->) HF IH]; simpl; auto.
    rewrite E. f_equal; auto.
  - destruct HS as (doc & parts & HD & HF & ->). destruct (HD HN) as [H1 H2].
    destruct (relative_parent (a_parent a)) eqn:ER.
    + rewrite H1 by (apply relative_parent_spec; auto). apply can_query_all. auto.
    + rewrite H2; [apply can_query_all; auto|]. rewrite <- relative_parent_spec. congruence.
Qed.

Lemma can_elements_bytes a m r : selected_bytes L a m r -> can (fun ord => elements_bytes L ord a) m (Some r) m.
Proof.
  intros (data & failed & EG & HS). unfold elements_bytes. rewrite can_bind by port. left. exists m, m. split; [apply can_msg; auto|].
  rewrite can_bind by port. left. exists (data, failed), m. split; [apply can_opt; auto|].
  destruct failed; [subst; apply can_ret; auto|]. destruct HS as (d & EU & HS).
  rewrite can_bind by port. left. exists d, m. split; [apply can_opt; auto|].
  destruct d as [d|]; [|subst; apply can_ret; auto].
  destruct (split_objects d); [subst; apply can_ret; auto|]. unfold objects_of_map.
  destruct (json_parse_map L d) as [obj|]; [|subst; apply can_ret; auto].
  destruct HS as (es & (ks & HP & HF) & ->). rewrite can_bind by port. left. exists ks, m. split; [apply can_range; eauto|].
  apply can_ret. split; auto. f_equal. f_equal. f_equal. unfold singletons. clear HP.
  induction HF as [|k e ks es (x & E & ->) HF IH]; simpl; auto. rewrite E. f_equal; auto.
Qed.

(** ** Returns *)
Local Notation run n := (fun ord => eval L ord n).
Lemma can_same n m r m' : can (run n) m (Some r) m' -> m' = m.
Proof.
  intros (ord & t & s & HF & E & <-). destruct r as [b x]. apply eval_outcome in E; auto. destruct E as [E _]. auto.
Qed.

Lemma portable_children ns : Forall (@portable (bool * extra)) (map (fun n ord => eval L ord n) ns).
Proof. apply Forall_map_iff. apply Forall_forall. intros n _. apply portable_eval. Qed.
Lemma portable_and' ns acc : portable (fun ord => and_loop (map (eval L ord) ns) acc).
Proof.
  assert (E : forall ord, map (eval L ord) ns = map (fun e : order -> M (bool * extra) => e ord) (map (fun n ord => eval L ord n) ns)).
  { intro ord. rewrite map_map. auto. }
  pose proof (portable_and _ (portable_children ns) acc) as H. intros ord s r s' H0. rewrite E in H0.
  destruct (H ord s r s' H0) as (k & K1 & K2). exists k. split; auto. intros ord' t' HO. rewrite E. apply K2. auto.
Qed.
Lemma portable_or' ns out acc : portable (fun ord => or_loop (map (eval L ord) ns) out acc).
Proof.
  assert (E : forall ord, map (eval L ord) ns = map (fun e : order -> M (bool * extra) => e ord) (map (fun n ord => eval L ord n) ns)).
  { intro ord. rewrite map_map. auto. }
  pose proof (portable_or _ (portable_children ns) out acc) as H. intros ord s r s' H0. rewrite E in H0.
  destruct (H ord s r s' H0) as (k & K1 & K2). exists k. split; auto. intros ord' t' HO. rewrite E. apply K2. auto.
Qed.
#[local] Hint Resolve portable_eval portable_and' portable_or' : port.

Definition later (acc y : extra) : extra := match y with [] => acc | _ => y end.
Lemma last_later ys : forall acc x, last_non_empty (acc :: ys) x -> x = fold_left later ys acc.
Proof.
  induction ys as [|y ys IH]; intros acc x H; simpl.
  - destruct H as [[-> H]|(_ & before & after & E & _)].
    + inversion H; auto.
    + destruct before as [|? before]; [injection E; auto|]. injection E; intros E' _. destruct before; discriminate.
  - apply IH. destruct H as [[-> H]|(N & before & after & E & HA)].
    + left. split; auto. inversion H as [|? ? H1 H2]; subst. inversion H2 as [|? ? H3 H4]; subst. constructor; auto.
    + destruct before as [|z before]; simpl in E.
      * injection E; intros E1 E2. subst. inversion HA as [|? ? H1 H2]; subst. right. split; auto. exists [], ys. auto.
      * injection E; intros E1 E2. subst z. destruct before as [|w before]; simpl in E1.
        -- injection E1; intros; subst. right. split; auto. exists [], after. simpl. destruct x; [congruence|]. auto.
        -- injection E1; intros; subst. right. split; auto. exists (later acc w :: before), after. auto.
Qed.

Lemma and_true_can ns rs m : Forall2 (fun n r => fst r = true /\ can (run n) m (Some r) m) ns rs ->
  forall acc r m', can (fun ord => and_loop (map (eval L ord) []) (fold_left later (map snd rs) acc)) m r m' ->
    can (fun ord => and_loop (map (eval L ord) ns) acc) m r m'.
Proof.
  induction 1 as [|n r ns rs [E H] HF IH]; intros acc r' m' HR; simpl in *; auto.
  rewrite can_bind by port. left. exists r, m. split; auto. destruct r as [b x]. simpl in E. subst b.
  apply IH. auto.
Qed.
Lemma and_prefix_can before rest rs m : Forall2 (fun n r => fst r = true /\ can (run n) m (Some r) m) before rs ->
  forall acc r m', can (fun ord => and_loop (map (eval L ord) rest) (fold_left later (map snd rs) acc)) m r m' ->
    can (fun ord => and_loop (map (eval L ord) (before ++ rest)) acc) m r m'.
Proof.
  induction 1 as [|n r ns rs [E H] HF IH]; intros acc r' m' HR; simpl in *; auto.
  rewrite can_bind by port. left. exists r, m. split; auto. destruct r as [b x]. simpl in E. subst b.
  apply IH. auto.
Qed.
Lemma or_prefix_can before rest rs m : Forall2 (fun n r => can (run n) m (Some r) m) before rs ->
  forall out acc r m', can (fun ord => or_loop (map (eval L ord) rest) (out || existsb fst rs) (acc ++ List.concat (map snd (filter fst rs)))%list) m r m' ->
    can (fun ord => or_loop (map (eval L ord) (before ++ rest)) out acc) m r m'.
Proof.
  induction 1 as [|n r ns rs H HF IH]; intros out acc r' m' HR; simpl in *.
  - rewrite orb_false_r, app_nil_r in HR. auto.
  - rewrite can_bind by port. left. exists r, m. split; auto. destruct r as [b x]. simpl in HR.
    apply IH. rewrite orb_assoc in HR. destruct b; simpl in HR; [|auto]. rewrite <- app_assoc. auto.
Qed.

(** *** loops over elements *)
Section Loops.
Context {V : Type}.
Variables (set : V -> M unit) (getx : M (list (string * iface))) (inner : order -> M (bool * extra)).
Variables (ctx : V -> message) (same : message -> Prop) (rec : V -> option (list (string * iface))).
Hypothesis Hset : forall v m t, same m -> set v (mkEst m t) = (Some tt, mkEst (ctx v) t).
Hypothesis Hsame : forall v, same (ctx v).
Hypothesis Hget : forall v t, getx (mkEst (ctx v) t) = (rec v, mkEst (ctx v) t).
Hypothesis Hinner : portable inner.
Hypothesis Hkeep : forall m r m', can inner m (Some r) m' -> m' = m.
Hypothesis Pset : forall v, portable (fun _ => set v).
Hypothesis Pget : portable (fun _ => getx).

Lemma can_setv v m r m' : same m -> (can (fun _ => set v) m r m' <-> r = Some tt /\ m' = ctx v).
Proof using Hset. intro HS. rewrite can_still; [|intros; rewrite !Hset; auto]. rewrite Hset; simpl; auto. tauto. Qed.
Lemma can_getx v r m' : can (fun _ => getx) (ctx v) r m' <-> r = rec v /\ m' = ctx v.
Proof. rewrite can_still; [|intros; rewrite !Hget; auto]. rewrite Hget; simpl; auto. tauto. Qed.

(** ALL *)
Lemma all_step v vals m r m' : same m ->
  (can (fun ord => all_loop set (inner ord) (v :: vals)) m r m' <->
   (can inner (ctx v) None m' /\ r = None) \/
   ((exists y, can inner (ctx v) (Some (true, y)) (ctx v)) /\ can (fun ord => all_loop set (inner ord) vals) (ctx v) r m') \/
   ((exists y, can inner (ctx v) (Some (false, y)) (ctx v)) /\ r = Some (false, []) /\ m' = ctx v)).
Proof using Hset Hsame Hinner Hkeep Pset.
  intro HS. cbn [all_loop].
  assert (PL : portable (fun ord => all_loop set (inner ord) vals)) by (apply portable_all; auto).
  assert (PB : portable (fun ord : order => mdo (flag, _) <- inner ord; (if flag then all_loop set (inner ord) vals else mret (false, [])))).
  { apply portable_bind; [auto|]. intros [flag y]. destruct flag; auto using portable_ret. }
  rewrite can_bind by (auto || (intros _; exact PB)).
  assert (E1 : forall (K : unit -> message -> Prop), (exists a m1, can (fun _ => set v) m (Some a) m1 /\ K a m1) <-> K tt (ctx v)).
  { intro K. split.
    - intros (a & m1 & H1 & H2). apply can_setv in H1; auto. destruct H1 as [H1 ->]. injection H1; intros ->. auto.
    - intro H. exists tt, (ctx v). split; auto. apply can_setv; auto. }
  rewrite E1. clear E1.
  assert (E2 : ~ (r = None /\ can (fun _ => set v) m None m')).
  { intros [_ H]. apply can_setv in H; auto. destruct H; discriminate. }
  rewrite can_bind; [|auto|intros [flag y]; destruct flag; auto using portable_ret].
  split.
  - intros [[([flag y] & m1 & H1 & H2)|[-> H1]]|H]; [|left; auto|tauto].
    pose proof (Hkeep _ _ _ H1) as ->. destruct flag.
    + right. left. split; eauto.
    + right. right. split; eauto. apply can_ret in H2. auto.
  - intros [[H ->]|[[[y H1] H2]|[[y H1] [-> ->]]]]; left; [right; auto| |].
    + left. exists (true, y), (ctx v). auto.
    + left. exists (false, y), (ctx v). split; auto. apply can_ret. auto.
Qed.

Lemma all_panic vals : forall m, same m ->
  ((exists m', can (fun ord => all_loop set (inner ord) vals) m None m') <->
   exists before v after, vals = (before ++ v :: after)%list /\
     Forall (fun v => exists y, can inner (ctx v) (Some (true, y)) (ctx v)) before /\ exists m', can inner (ctx v) None m').
Proof using Hset Hsame Hinner Hkeep Pset.
  induction vals as [|v vals IH]; intros m HS.
  - split.
    + intros [m' H]. apply can_ret in H. destruct H; discriminate.
    + intros ([|? before] & w & after & E & _); discriminate.
  - split.
    + intros [m' H]. apply all_step in H; auto. destruct H as [[H _]|[[H1 H2]|[H1 [H2 _]]]]; [| |discriminate].
      * exists [], v, vals. eauto.
      * destruct (proj1 (IH (ctx v) (Hsame v)) (ex_intro _ m' H2)) as (before & w & after & -> & HF & HB).
        exists (v :: before), w, after. auto.
    + intros (before & w & after & E & HF & HB). destruct before as [|u before]; simpl in E; injection E; intros; subst.
      * destruct HB as [m' HB]. exists m'. apply all_step; auto.
      * inversion HF as [|? ? HU HF']; subst.
        assert (HI : exists m', can (fun ord => all_loop set (inner ord) (before ++ w :: after)) (ctx u) None m').
        { apply IH; auto. exists before, w, after. auto. }
        destruct HI as [m' H]. exists m'. apply all_step; auto.
Qed.
Lemma all_true_can vals : Forall (fun v => exists y, can inner (ctx v) (Some (true, y)) (ctx v)) vals ->
  forall rest m r m', same m ->
  (forall m1, same m1 -> can (fun ord => all_loop set (inner ord) rest) m1 r m') -> can (fun ord => all_loop set (inner ord) (vals ++ rest)) m r m'.
Proof using Hset Hsame Hinner Hkeep Pset.
  induction 1 as [|v vals H HF IH]; intros rest m r m' HS HR; simpl app; [auto|].
  apply all_step; auto.
Qed.

Variable getx' : option (M (list (string * iface))).
Hypothesis Hgetx : getx' = Some getx \/ getx' = None.
Variable all_values : bool.
Let loop vals result acc := fun ord => any_loop set getx' all_values (inner ord) vals result acc.
Lemma Pgetx' : forall g, getx' = Some g -> portable (fun _ => g).
Proof. intros g E. destruct Hgetx as [H|H]; rewrite H in E; [injection E; intros <-; auto|discriminate]. Qed.
Lemma portable_loop vals result acc : portable (loop vals result acc).
Proof. apply portable_any; auto. apply Pgetx'. Qed.
#[local] Hint Resolve portable_loop Hinner Pset Pget : port.

Lemma portable_record (acc : extra) : portable (fun _ : order => match getx' with
                        | Some g => mdo x <- g; mret (acc ++ [x])%list
                        | None => mret acc
                        end).
Proof. destruct Hgetx as [-> | ->]; port. Qed.
Lemma portable_tail vals (acc : extra) : portable (fun ord => if all_values then any_loop set getx' all_values (inner ord) vals true acc else mret (true, acc)).
Proof. pose proof (portable_loop vals true acc) as H. unfold loop in H. revert H. generalize all_values. intros [|] H; [exact H|port]. Qed.
#[local] Hint Resolve portable_record portable_tail : port.

(** the record added for an element *)
Definition records (v : V) (acc acc' : extra) : Prop :=
  match getx' with
  | Some _ => exists e, rec v = Some e /\ acc' = (acc ++ [e])%list
  | None => acc' = acc
  end.

(** one step of the loop *)
Lemma any_step v vals result acc m r m' : same m ->
  (can (loop (v :: vals) result acc) m r m' <->
   (can inner (ctx v) None m' /\ r = None) \/
   ((exists y, can inner (ctx v) (Some (false, y)) (ctx v)) /\ can (loop vals result acc) (ctx v) r m') \/
   ((exists y, can inner (ctx v) (Some (true, y)) (ctx v)) /\
     ((getx' <> None /\ rec v = None /\ r = None /\ m' = ctx v) \/
      exists acc', records v acc acc' /\
       if all_values then can (loop vals true acc') (ctx v) r m' else r = Some (true, acc') /\ m' = ctx v))).
Proof.
  intro HS. unfold loop. cbn [any_loop].
  assert (PT : portable (fun ord : order => mdo acc0 <- match getx' with
                        | Some g => mdo x <- g; mret (acc ++ [x])%list
                        | None => mret acc
                        end;
           (if all_values then any_loop set getx' all_values (inner ord) vals true acc0
                     else mret (true, acc0)))).
  { port. }
  assert (PB : portable (fun ord : order => mdo (flag, _) <- inner ord;
     (if flag then mdo acc0 <- match getx' with
                        | Some g => mdo x <- g; mret (acc ++ [x])%list
                        | None => mret acc
                        end;
           (if all_values then any_loop set getx' all_values (inner ord) vals true acc0
                     else mret (true, acc0)) else any_loop set getx' all_values (inner ord) vals result acc))).
  { apply portable_bind; [auto|]. intros [flag y]. destruct flag; [exact PT|apply portable_loop]. }
  rewrite can_bind by (auto || (intros _; exact PB)).
  assert (E1 : forall (K : unit -> message -> Prop), (exists a m1, can (fun _ => set v) m (Some a) m1 /\ K a m1) <-> K tt (ctx v)).
  { intro K. split.
    - intros (a & m1 & H1 & H2). apply can_setv in H1; auto. destruct H1 as [H1 ->]. injection H1; intros ->. auto.
    - intro H. exists tt, (ctx v). split; auto. apply can_setv; auto. }
  rewrite E1. clear E1.
  assert (E2 : ~ (r = None /\ can (fun _ => set v) m None m')).
  { intros [_ H]. apply can_setv in H; auto. destruct H; discriminate. }
  rewrite can_bind; [|auto|intros [flag y]; destruct flag; [exact PT|apply portable_loop]].
  assert (E3 : can (fun ord : order => mdo acc0 <- match getx' with
                        | Some g => mdo x <- g; mret (acc ++ [x])%list
                        | None => mret acc
                        end;
           (if all_values then any_loop set getx' all_values (inner ord) vals true acc0
                     else mret (true, acc0))) (ctx v) r m' <->
     ((getx' <> None /\ rec v = None /\ r = None /\ m' = ctx v) \/
      exists acc', records v acc acc' /\
       if all_values then can (loop vals true acc') (ctx v) r m' else r = Some (true, acc') /\ m' = ctx v)).
  { rewrite can_bind.
    2,3: port.
    assert (E4 : forall a m1, can (fun _ : order => match getx' with
                        | Some g => mdo x <- g; mret (acc ++ [x])%list
                        | None => mret acc
                        end) (ctx v) a m1 <-> m1 = ctx v /\ match a with Some acc' => records v acc acc' | None => getx' <> None /\ rec v = None end).
    { intros a m1. unfold records. destruct Hgetx as [-> | ->].
      - rewrite can_bind by port. setoid_rewrite can_getx. split.
        + intros [(e & m2 & [H1 ->] & H2)|[-> [H1 ->]]].
          * apply can_ret in H2. destruct H2 as [-> ->]. split; auto. exists e. auto.
          * split; auto. split; [discriminate|auto].
        + intros [-> H]. destruct a as [acc'|].
          * destruct H as (e & H1 & ->). left. exists e, (ctx v). split; auto. apply can_ret; auto.
          * right. destruct H; auto.
      - rewrite can_ret. destruct a as [acc'|].
        + split; [intros [H ->]; injection H; auto|intros [-> ->]; auto].
        + split; [intros [H _]; discriminate|intros [_ [H _]]; congruence]. }
    assert (E5 : forall acc', can (fun ord => if all_values then any_loop set getx' all_values (inner ord) vals true acc' else mret (true, acc')) (ctx v) r m' <->
      if all_values then can (loop vals true acc') (ctx v) r m' else r = Some (true, acc') /\ m' = ctx v).
    { intro acc'. unfold loop. generalize all_values. intros [|]; [reflexivity|apply can_ret]. }
    setoid_rewrite E4. split.
    - intros [(acc' & m1 & [-> H1] & H2)|(-> & -> & H1 & H2)].
      + right. exists acc'. split; auto. apply E5. auto.
      + left. auto.
    - intros [(H1 & H2 & -> & ->)|(acc' & H1 & H2)]; [right; auto|left].
      exists acc', (ctx v). split; auto. apply E5. auto. }
  split.
  - intros [[([flag y] & m1 & H1 & H2)|[-> H1]]|H]; [|left; auto|tauto].
    pose proof (Hkeep _ _ _ H1) as ->. destruct flag.
    + right. right. split; eauto. apply E3. auto.
    + right. left. split; eauto.
  - intros [[H ->]|[[[y H1] H2]|[[y H1] H2]]]; left; [right; auto| |].
    + left. exists (false, y), (ctx v). auto.
    + left. exists (true, y), (ctx v). split; auto. apply E3. auto.
Qed.

(** the loop goes on after the element *)
Definition passes (v : V) : Prop :=
  (exists y, can inner (ctx v) (Some (false, y)) (ctx v)) \/
  (all_values = true /\ (exists y, can inner (ctx v) (Some (true, y)) (ctx v)) /\ (getx' = None \/ rec v <> None)).
Definition breaks (v : V) : Prop :=
  (exists m', can inner (ctx v) None m') \/
  ((exists y, can inner (ctx v) (Some (true, y)) (ctx v)) /\ getx' <> None /\ rec v = None).

Lemma any_panic vals : forall result acc m, same m ->
  ((exists m', can (loop vals result acc) m None m') <->
   exists before v after, vals = (before ++ v :: after)%list /\ Forall passes before /\ breaks v).
Proof.
  induction vals as [|v vals IH]; intros result acc m HS.
  - split.
    + intros [m' H]. apply can_ret in H. destruct H; discriminate.
    + intros ([|? before] & w & after & E & _); discriminate.
  - split.
    + intros [m' H]. apply any_step in H; auto. destruct H as [[H _]|[[H1 H2]|[H1 [(H2 & H3 & _ & _)|(acc' & H2 & H3)]]]].
      * exists [], v, vals. split; auto. split; auto. left. eauto.
      * destruct (proj1 (IH result acc (ctx v) (Hsame v)) (ex_intro _ m' H2)) as (before & w & after & -> & HF & HB).
        exists (v :: before), w, after. split; auto. split; auto. constructor; auto. left. auto.
      * exists [], v, vals. split; auto. split; auto. right. auto.
      * assert (EA : all_values = true) by (case_eq all_values; intro EA; rewrite EA in H3; [auto|destruct H3; discriminate]). rewrite EA in H3.
        destruct (proj1 (IH true acc' (ctx v) (Hsame v)) (ex_intro _ m' H3)) as (before & w & after & -> & HF & HB).
        exists (v :: before), w, after. split; auto. split; auto. constructor; auto. right. split; auto. split; auto.
        unfold records in H2. case_eq getx'; [intros g EG|auto]. right. rewrite EG in H2. destruct H2 as (e & -> & _). discriminate.
    + intros (before & w & after & E & HF & HB). destruct before as [|u before]; simpl in E; injection E; intros; subst.
      * destruct HB as [[m' HB]|(H1 & H2 & H3)].
        -- exists m'. apply any_step; auto.
        -- exists (ctx w). apply any_step; auto. right. right. split; auto.
      * inversion HF as [|? ? HU HF']; subst.
        assert (HI : forall result acc, exists m', can (loop (before ++ w :: after) result acc) (ctx u) None m').
        { intros. apply IH; auto. exists before, w, after. auto. }
        destruct HU as [HU|(EA & HU & HR)].
        -- destruct (HI result acc) as [m' H]. exists m'. apply any_step; auto.
        -- assert (HX : exists acc', records u acc acc').
           { unfold records. case_eq getx'; eauto. intros g EG. destruct HR as [HR|HR]; [congruence|]. destruct (rec u) as [e|]; [|congruence]. eauto. }
           destruct HX as [acc' HX]. destruct (HI true acc') as [m' H]. exists m'. apply any_step; auto. right. right. split; auto.
           right. exists acc'. split; auto. rewrite EA. auto.
Qed.

Lemma any_false_can vals result acc : Forall (fun v => exists y, can inner (ctx v) (Some (false, y)) (ctx v)) vals ->
  forall rest m r m', same m ->
  (forall m1, same m1 -> can (loop rest result acc) m1 r m') -> can (loop (vals ++ rest) result acc) m r m'.
Proof.
  induction 1 as [|v vals H HF IH]; intros rest m r m' HS HR; simpl; [auto|].
  apply any_step; auto.
Qed.

Lemma any_all_can vals bs : Forall2 (fun v b => exists y, can inner (ctx v) (Some (b, y)) (ctx v)) vals bs ->
  forall result acc x' m, same m ->
  Forall2 (fun v e => getx' <> None /\ rec v = Some e) (map fst (filter snd (combine vals bs))) x' ->
  all_values = true ->
  exists m', can (loop vals result acc) m (Some (result || existsb (fun b => b) bs, acc ++ x')%list) m'.
Proof.
  induction 1 as [|v b vals bs H HF IH]; intros result acc x' m HS HX; simpl in *.
  - inversion HX; subst. intro EA. rewrite orb_false_r, app_nil_r. exists m. apply can_ret. auto.
  - destruct b; simpl in *.
    + inversion HX as [|? e ? x2 [H1 H2] HX2]; subst. intro EA.
      destruct (IH true (acc ++ [e])%list x2 (ctx v) (Hsame v) HX2 EA) as [m' HC]. exists m'. rewrite <- app_assoc in HC. simpl in HC.
      apply any_step; auto. right. right. split; auto. right. exists (acc ++ [e])%list. split.
      * unfold records. case_eq getx'; [eauto|intro; congruence].
      * rewrite EA. rewrite orb_true_r. auto.
    + intro EA. destruct (IH result acc x' (ctx v) (Hsame v) HX EA) as [m' HC]. exists m'. apply any_step; auto.
Qed.

End Loops.


(** ** ANY and ALL *)
Local Notation get_iface a := (mdo m <- mmsg; mopt (extra_iface L (a_ret a) m)).
Local Notation get_bytes a := (mdo m <- mmsg; mopt (extra_bytes L (a_ret a) m)).
Definition loop_iface (q : quant) (a : aanode L) (n : node) (vs : list iface) : order -> M (bool * extra) :=
  fun ord => quant_loop L q a (fun v => set_raw_relative (Some v)) (get_iface a) (eval L ord n) vs.
Definition loop_bytes (q : quant) (a : aanode L) (n : node) (vs : list string) : order -> M (bool * extra) :=
  fun ord => quant_loop L q a (fun v => set_json_relative (Some v)) (get_bytes a) (eval L ord n) vs.
Lemma portable_loop_iface q a n vs : portable (loop_iface q a n vs).
Proof. unfold loop_iface. apply portable_quant; auto with port. port. Qed.
Lemma portable_loop_bytes q a n vs : portable (loop_bytes q a n vs).
Proof. unfold loop_bytes. apply portable_quant; auto with port. port. Qed.
#[local] Hint Resolve portable_loop_iface portable_loop_bytes : port.

Lemma can_elements_iface_msg a m vs m' : can (fun ord => elements_iface L ord a) m (Some vs) m' -> m' = m.
Proof. intros (ord & t & s & HF & E & <-). apply elements_iface_msg in E. auto. Qed.
Lemma can_elements_bytes_msg a m vs m' : can (fun ord => elements_bytes L ord a) m (Some vs) m' -> m' = m.
Proof. intros (ord & t & s & HF & E & <-). apply elements_bytes_msg in E. auto. Qed.

Lemma can_raw_relative v m r m' : can (fun _ => set_raw_relative v) m r m' <-> r = Some tt /\ m' = set_raw_rel m v.
Proof. rewrite can_still; simpl; auto. tauto. Qed.
Lemma can_json_relative v m r m' : can (fun _ => set_json_relative v) m r m' <-> r = Some tt /\ m' = set_json_rel m v.
Proof. rewrite can_still; simpl; auto. tauto. Qed.

Lemma quant_iface_can q a n m r : m_raw m <> None -> a_prep a <> [] ->
  ((exists m', can (run (NQuant q a n)) m r m') <->
   (r = None /\ exists m', can (fun ord => elements_iface L ord a) m None m') \/
   exists vs, can (fun ord => elements_iface L ord a) m (Some vs) m /\ exists m', can (loop_iface q a n vs) m r m').
Proof.
  intros HR HP.
  assert (PQ : portable (fun ord => quant_iface L ord q a (eval L ord n))).
  { unfold quant_iface. port. apply (portable_loop_iface q a n). }
  assert (PB : portable (fun ord => quant_bytes L ord q a (eval L ord n))).
  { unfold quant_bytes. port. apply (portable_loop_bytes q a n). }
  assert (E0 : forall m', can (run (NQuant q a n)) m r m' <-> can (fun ord => quant_iface L ord q a (eval L ord n)) m r m').
  { intro m'. cbn [eval]. rewrite can_bind; [|port|intro m0; destruct (m_raw m0); [destruct (a_prep a)|]; auto]. split.
    - intros [(m0 & m1 & H1 & H2)|[_ H]]; [|apply can_msg in H; destruct H; discriminate].
      apply can_msg in H1. destruct H1 as [H1 ->]. injection H1; intros ->. destruct (m_raw m); [|congruence]. destruct (a_prep a); [congruence|]. auto.
    - intro H. left. exists m, m. split; [apply can_msg; auto|]. destruct (m_raw m); [|congruence]. destruct (a_prep a); [congruence|]. auto. }
  setoid_rewrite E0. clear E0. unfold quant_iface.
  assert (P1 : forall m1, portable (fun ord => mdo x <- quant_loop L q a (fun v => set_raw_relative (Some v)) (get_iface a) (eval L ord n) m1; mret x)).
  { intro. apply portable_bind; [apply (portable_loop_iface q a n)|port]. }
  split.
  - intros [m' H]. rewrite can_bind in H; [|port|intro; port; apply (portable_loop_iface q a n)].
    destruct H as [(vs & m1 & H1 & H2)|[-> H1]]; [|eauto]. right. exists vs.
    pose proof (can_elements_iface_msg _ _ _ _ H1) as ->. split; auto.
    rewrite can_bind in H2; [|port|intro; port; apply (portable_loop_iface q a n)].
    destruct H2 as [(m0 & m1 & H2 & H3)|[_ H2]]; [|apply can_msg in H2; destruct H2; discriminate].
    apply can_msg in H2. destruct H2 as [H2 ->]. injection H2; intros ->.
    rewrite can_bind in H3; [|apply (portable_loop_iface q a n)|intro; port].
    destruct H3 as [(r0 & m1 & H3 & H4)|[-> H3]]; [|eauto].
    rewrite can_bind in H4 by port. destruct H4 as [(u & m2 & H4 & H5)|[_ H4]]; [|apply can_raw_relative in H4; destruct H4; discriminate].
    apply can_ret in H5. destruct H5 as [-> ->]. eauto.
  - intros [[-> [m' H]]|(vs & H & m1 & H1)].
    + exists m'. rewrite can_bind; [|port|intro; port; apply (portable_loop_iface q a n)]. auto.
    + destruct r as [r0|].
      * exists (set_raw_rel m1 (m_raw_rel m)). rewrite can_bind; [|port|intro; port; apply (portable_loop_iface q a n)].
        left. exists vs, m. split; auto. rewrite can_bind; [|port|intro; port; apply (portable_loop_iface q a n)].
        left. exists m, m. split; [apply can_msg; auto|]. rewrite can_bind; [|apply (portable_loop_iface q a n)|intro; port].
        left. exists r0, m1. split; auto. rewrite can_bind by port. left. exists tt, (set_raw_rel m1 (m_raw_rel m)).
        split; [apply can_raw_relative; auto|]. apply can_ret. auto.
      * exists m1. rewrite can_bind; [|port|intro; port; apply (portable_loop_iface q a n)].
        left. exists vs, m. split; auto. rewrite can_bind; [|port|intro; port; apply (portable_loop_iface q a n)].
        left. exists m, m. split; [apply can_msg; auto|]. rewrite can_bind; [|apply (portable_loop_iface q a n)|intro; port].
        right. auto.
Qed.

Lemma quant_bytes_can q a n m r : m_raw m = None \/ a_prep a = [] ->
  ((exists m', can (run (NQuant q a n)) m r m') <->
   (r = None /\ exists m', can (fun ord => elements_bytes L ord a) m None m') \/
   (r = Some (false, []) /\ can (fun ord => elements_bytes L ord a) m (Some None) m) \/
   exists vs, can (fun ord => elements_bytes L ord a) m (Some (Some vs)) m /\ exists m', can (loop_bytes q a n vs) m r m').
Proof.
  intros HR.
  assert (PQ : portable (fun ord => quant_iface L ord q a (eval L ord n))).
  { unfold quant_iface. port. apply (portable_loop_iface q a n). }
  assert (PB : portable (fun ord => quant_bytes L ord q a (eval L ord n))).
  { unfold quant_bytes. port. apply (portable_loop_bytes q a n). }
  assert (EB : forall X (x y : X), match m_raw m, a_prep a with Some _, _ :: _ => x | _, _ => y end = y).
  { intros. destruct (m_raw m); auto. destruct (a_prep a); auto. destruct HR; discriminate. }
  assert (E0 : forall m', can (run (NQuant q a n)) m r m' <-> can (fun ord => quant_bytes L ord q a (eval L ord n)) m r m').
  { intro m'. cbn [eval]. rewrite can_bind; [|port|intro m0; destruct (m_raw m0); [destruct (a_prep a)|]; auto]. split.
    - intros [(m0 & m1 & H1 & H2)|[_ H]]; [|apply can_msg in H; destruct H; discriminate].
      apply can_msg in H1. destruct H1 as [H1 ->]. injection H1; intros ->. destruct (m_raw m); auto. destruct (a_prep a); auto. destruct HR; discriminate.
    - intro H. left. exists m, m. split; [apply can_msg; auto|]. destruct (m_raw m); auto. destruct (a_prep a); auto. destruct HR; discriminate. }
  setoid_rewrite E0. clear E0 EB. unfold quant_bytes.
  assert (P1 : forall o, portable (fun ord => match o with
      | None => mret (false, [])
      | Some vals => mdo m0 <- mmsg; mdo r0 <- quant_loop L q a (fun v => set_json_relative (Some v)) (get_bytes a) (eval L ord n) vals;
                     mdo _ <- set_json_relative (m_json_rel m0); mret r0 end)).
  { intros [vals|]; port. apply (portable_loop_bytes q a n). }
  split.
  - intros [m' H]. rewrite can_bind in H; [|port|exact P1].
    destruct H as [(vs & m1 & H1 & H2)|[-> H1]]; [|eauto]. right.
    pose proof (can_elements_bytes_msg _ _ _ _ H1) as ->. destruct vs as [vs|]; [right; exists vs|left; apply can_ret in H2; destruct H2; auto]. split; auto.
    rewrite can_bind in H2; [|port|intro; port; apply (portable_loop_bytes q a n)].
    destruct H2 as [(m0 & m1 & H2 & H3)|[_ H2]]; [|apply can_msg in H2; destruct H2; discriminate].
    apply can_msg in H2. destruct H2 as [H2 ->]. injection H2; intros ->.
    rewrite can_bind in H3; [|apply (portable_loop_bytes q a n)|intro; port].
    destruct H3 as [(r0 & m1 & H3 & H4)|[-> H3]]; [|eauto].
    rewrite can_bind in H4 by port. destruct H4 as [(u & m2 & H4 & H5)|[_ H4]]; [|apply can_json_relative in H4; destruct H4; discriminate].
    apply can_ret in H5. destruct H5 as [-> ->]. eauto.
  - intros [[-> [m' H]]|[[-> H]|(vs & H & m1 & H1)]].
    + exists m'. rewrite can_bind; [|port|exact P1]. auto.
    + exists m. rewrite can_bind; [|port|exact P1]. left. exists None, m. split; auto. apply can_ret. auto.
    + destruct r as [r0|].
      * exists (set_json_rel m1 (m_json_rel m)). rewrite can_bind; [|port|exact P1].
        left. exists (Some vs), m. split; auto. rewrite can_bind; [|port|intro; port; apply (portable_loop_bytes q a n)].
        left. exists m, m. split; [apply can_msg; auto|]. rewrite can_bind; [|apply (portable_loop_bytes q a n)|intro; port].
        left. exists r0, m1. split; auto. rewrite can_bind by port. left. exists tt, (set_json_rel m1 (m_json_rel m)).
        split; [apply can_json_relative; auto|]. apply can_ret. auto.
      * exists m1. rewrite can_bind; [|port|exact P1].
        left. exists (Some vs), m. split; auto. rewrite can_bind; [|port|intro; port; apply (portable_loop_bytes q a n)].
        left. exists m, m. split; [apply can_msg; auto|]. rewrite can_bind; [|apply (portable_loop_bytes q a n)|intro; port].
        right. auto.
Qed.

(** the loops realise the described outcomes *)
Lemma loop_outcome {V} q a n (set : V -> M unit) getx (ctx : V -> message) (same : message -> Prop)
    (rec : V -> option (list (string * iface))) (record : message -> list (string * iface) -> Prop) vals m b x :
  (forall v m t, same m -> set v (mkEst m t) = (Some tt, mkEst (ctx v) t)) ->
  (forall v, same (ctx v)) ->
  (forall v t, getx (mkEst (ctx v) t) = (rec v, mkEst (ctx v) t)) ->
  (forall v, portable (fun _ => set v)) -> portable (fun _ => getx) ->
  (forall v e, record (ctx v) e -> rec v = Some e) ->
  same m -> r_paths (a_ret a) <> Some [] ->
  match q with
  | QAny => any_outcome L (fun _ => record) a (fun m' b y => can (run n) m' (Some (b, y)) m') (map ctx vals) b x
  | QAll => all_outcome (fun m' b y => can (run n) m' (Some (b, y)) m') (map ctx vals) b x
  end -> exists m', can (fun ord => quant_loop L q a set getx (eval L ord n) vals) m (Some (b, x)) m'.
Proof.
  intros Hset Hsame Hget Pset Pget Hrec HS HR H. unfold quant_loop. destruct q.
  - unfold any_outcome, declared in H.
    set (getx' := match r_paths (a_ret a) with Some _ => Some getx | None => None end) in *.
    assert (HG : getx' = Some getx \/ getx' = None) by (unfold getx'; destruct (r_paths (a_ret a)); auto).
    destruct (r_paths (a_ret a)) as [[|pp ps]|] eqn:EP; [congruence| |].
    + destruct H as (bs & HF & HB & HX).
      assert (EB : b = existsb (fun b => b) bs).
      { destruct (existsb (fun b => b) bs) eqn:E.
        - apply HB. apply existsb_exists in E. destruct E as (y & HI & ->). auto.
        - destruct b; auto. exfalso. assert (HI : In true bs) by (apply HB; auto).
          assert (existsb (fun b => b) bs = true) by (apply existsb_exists; exists true; auto). congruence. }
      assert (HX' : Forall2 (fun v e => getx' <> None /\ rec v = Some e) (map fst (filter snd (combine vals bs))) x).
      { clear HF HB EB. unfold getx'. revert bs x HX. induction vals as [|v vals IH]; intros bs x HX; simpl in *; [inversion HX; constructor|].
        destruct bs as [|b0 bs]; simpl in *; [inversion HX; constructor|]. destruct b0; simpl in *; [|apply IH; auto].
        inversion HX; subst. constructor; auto. split; [discriminate|auto]. }
      rewrite EB. apply (any_all_can set getx (fun ord => eval L ord n) ctx same rec) with (result := false) (acc := []) (x' := x) (bs := bs) (getx' := getx'); auto with port.
      * intros. eapply can_same; eauto.
      * clear HB EB HX HX'. revert bs HF. induction vals as [|v vals IH]; intros bs HF; inversion HF; subst; constructor; auto.
    + destruct H as [(-> & -> & HF)|(-> & before & m1 & after & E & HF & [y HY] & HX)].
      * exists (match rev vals with v :: _ => ctx v | [] => m end).
        assert (HF' : Forall (fun v => exists y, can (run n) (ctx v) (Some (false, y)) (ctx v)) vals) by (rewrite Forall_map_iff in HF; auto).
        clear HF. revert m HS HF'. induction vals as [|v vals IH]; intros m HS HF'; [apply can_ret; auto|].
        apply (any_step set getx (fun ord => eval L ord n) ctx same rec); auto with port; [intros; eapply can_same; eauto|].
        inversion HF' as [|? ? H1 H2]; subst. right. left. split; auto.
        simpl rev. replace (match (rev vals ++ [v])%list with v0 :: _ => ctx v0 | [] => m end) with (match rev vals with v0 :: _ => ctx v0 | [] => ctx v end) by (destruct (rev vals); auto).
        apply IH; auto.
      * specialize (HX eq_refl). subst x.
        apply map_app_inv_prop in E. destruct E as (l1 & l2 & -> & -> & E2). destruct l2 as [|v l2]; [discriminate|].
        injection E2; intros -> ->. rewrite Forall_map_iff in HF. exists (ctx v).
        apply (any_false_can set getx (fun ord => eval L ord n) ctx same rec); auto with port; [intros; eapply can_same; eauto|].
        intros m1 HS1. apply (any_step set getx (fun ord => eval L ord n) ctx same rec); auto with port; [intros; eapply can_same; eauto|].
        right. right. split; eauto. right. exists []. split; auto. unfold records, getx'. auto.
  - destruct H as [-> [[-> HF]|(-> & before & m1 & after & E & HF & [y HY])]].
    + exists (match rev vals with v :: _ => ctx v | [] => m end).
      assert (HF' : Forall (fun v => exists y, can (run n) (ctx v) (Some (true, y)) (ctx v)) vals) by (rewrite Forall_map_iff in HF; auto).
      clear HF. revert m HS HF'. induction vals as [|v vals IH]; intros m HS HF'; [apply can_ret; auto|].
      apply (all_step set (fun ord => eval L ord n) ctx same); auto with port; [intros; eapply can_same; eauto|].
      inversion HF' as [|? ? H1 H2]; subst. right. left. split; auto.
      simpl rev. replace (match (rev vals ++ [v])%list with v0 :: _ => ctx v0 | [] => m end) with (match rev vals with v0 :: _ => ctx v0 | [] => ctx v end) by (destruct (rev vals); auto).
      apply IH; auto.
    + apply map_app_inv_prop in E. destruct E as (l1 & l2 & -> & -> & E2). destruct l2 as [|v l2]; [discriminate|].
      injection E2; intros -> ->. rewrite Forall_map_iff in HF. exists (ctx v).
      apply (all_true_can set (fun ord => eval L ord n) ctx same); auto with port; [intros; eapply can_same; eauto|].
      intros m1 HS1. apply (all_step set (fun ord => eval L ord n) ctx same); auto with port; [intros; eapply can_same; eauto|].
      right. right. split; eauto.
Qed.


(** no ANY or ALL declares an empty map of return values (the loader never builds one) *)
Fixpoint tidy (n : node) : Prop :=
  match n with
  | NAnd ns | NOr ns => fold_right (fun n' p => tidy n' /\ p) True ns
  | NNot n' => tidy n'
  | NQuant _ a n' => r_paths (a_ret a) <> Some [] /\ tidy n'
  | _ => True
  end.

Lemma mono_any a (R R' : message -> bool -> extra -> Prop) ms b x : (forall m b y, R m b y -> R' m b y) ->
  any_outcome L (any_record L) a R ms b x -> any_outcome L (any_record L) a R' ms b x.
Proof.
  intros HI. unfold any_outcome. destruct (declared L a).
  - intros [(-> & -> & HF)|(-> & before & m1 & after & -> & HF & [y HY] & HX)]; [left|right; split; auto; exists before, m1, after]; repeat split; eauto;
      eapply Forall_impl; try exact HF; intros m0 [z HZ]; eauto.
  - intros (bs & HF & HB & HX). exists bs. split; auto. eapply Forall2_imp; [|exact HF]. intros m0 b0 [z HZ]. eauto.
Qed.
Lemma mono_all (R R' : message -> bool -> extra -> Prop) ms b x : (forall m b y, R m b y -> R' m b y) ->
  all_outcome R ms b x -> all_outcome R' ms b x.
Proof.
  intros HI [-> [[-> HF]|(-> & before & m1 & after & -> & HF & [y HY])]]; split; auto; [left|right; split; auto; exists before, m1, after]; repeat split; eauto;
      eapply Forall_impl; try exact HF; intros m0 [z HZ]; eauto.
Qed.

Lemma fix_msg n m r : (exists m', can (run n) m (Some r) m') -> can (run n) m (Some r) m.
Proof. intros [m' H]. pose proof (can_same _ _ _ _ H) as ->. auto. Qed.

Theorem outcome_can n : tidy n -> forall m b x,
  tree_outcome L (leaf_outcome L) (contexts L) (any_record L) n m b x -> can (run n) m (Some (b, x)) m.
Proof.
  induction n using node_ind'; intros HT m b x HO.
  - simpl in HO. destruct HO as (ev & rest & rs & HE & HF & HB & HX).
    apply map_app_inv_prop in HE. destruct HE as (l1 & l2 & -> & -> & ->). apply Forall2_map_l_inv in HF.
    simpl in HT. apply fold_and in HT. apply Forall_app in HT. destruct HT as [HT1 _]. apply Forall_app in H. destruct H as [H _].
    assert (HC : Forall2 (fun n r => can (run n) m (Some r) m) l1 rs).
    { clear HB HX. induction HF as [|n r l1 rs HR HF IH]; constructor.
      - inversion H; inversion HT1; subst. destruct r. auto.
      - inversion H; inversion HT1; subst. auto. }
    assert (EX : x = fold_left later (map snd rs) []).
    { apply last_later. destruct HX as [[-> HX]|(N & bf & af & E & HA)]; [left; auto|right]. split; auto.
      exists ([] :: bf), af. rewrite E. auto. }
    destruct HB as [(-> & ER & HA)|(-> & rs0 & r & -> & Hr & HA)].
    + destruct l2; [|discriminate]. rewrite app_nil_r. cbn [eval]. rewrite <- (app_nil_r l1).
      apply and_prefix_can with (rs := rs).
      * clear -HC HA. induction HC; constructor; inversion HA; subst; auto.
      * simpl. apply can_ret. rewrite EX. auto.
    + apply Forall2_app_inv_r in HC. destruct HC as (k1 & k2 & HC1 & HC2 & ->). inversion HC2 as [|n r' k3 ? HN HC3]; subst.
      inversion HC3; subst. cbn [eval]. rewrite <- app_assoc. apply and_prefix_can with (rs := rs0).
      * clear -HC1 HA. induction HC1; constructor; inversion HA; subst; auto.
      * rewrite map_app, fold_left_app. simpl. rewrite can_bind by port. left. exists r, m. split; auto.
        destruct r as [b y]. simpl in Hr. subst b. simpl. apply can_ret. auto.
  - simpl in HO. destruct HO as (rs & HF & HB & ->). apply Forall2_map_l_inv in HF.
    simpl in HT. apply fold_and in HT.
    assert (HC : Forall2 (fun n r => can (run n) m (Some r) m) ns rs).
    { clear HB. induction HF as [|n r l1 rs HR HF IH]; constructor.
      - inversion H; inversion HT; subst. destruct r. auto.
      - inversion H; inversion HT; subst. auto. }
    cbn [eval]. rewrite <- (app_nil_r ns). apply or_prefix_can with (rs := rs); auto. simpl. apply can_ret. split; auto. f_equal. f_equal.
    destruct (existsb fst rs) eqn:E.
    + apply HB. apply existsb_exists in E. apply Exists_exists. auto.
    + destruct b; auto. exfalso. assert (HX : Exists (fun r : bool * extra => fst r = true) rs) by (apply HB; auto).
      apply Exists_exists in HX. assert (existsb fst rs = true) by (apply existsb_exists; auto). congruence.
  - simpl in HO. destruct HO as [-> [y HY]]. cbn [eval]. rewrite can_bind by port. left. exists (negb b, y), m.
    split; [apply IHn; auto|]. apply can_ret. rewrite negb_involutive. auto.
  - simpl in HT. destruct HT as [HR HT]. specialize (IHn HT).
    assert (HO' : (exists ms, contexts L a m (Some ms) /\
      match q with
      | QAny => any_outcome L (any_record L) a (fun m' b y => can (run n) m' (Some (b, y)) m') ms b x
      | QAll => all_outcome (fun m' b y => can (run n) m' (Some (b, y)) m') ms b x
      end) \/ (contexts L a m None /\ b = false /\ x = [])).
    { simpl in HO. destruct HO as [(ms & HC & HO)|HO]; [left|right; auto]. exists ms. split; auto.
      destruct q; [eapply mono_any|eapply mono_all]; try exact HO; auto. }
    clear HO. apply fix_msg.
    assert (CASE : (m_raw m <> None /\ a_prep a <> []) \/ (m_raw m = None \/ a_prep a = [])).
    { destruct (m_raw m); [|auto]. destruct (a_prep a); [auto|]. left. split; discriminate. }
    destruct CASE as [[HM HP]|HM].
    + apply quant_iface_can; auto. right. destruct HO' as [(ms & HC & HO)|(HC & _)].
      * apply parsed_contexts in HC; auto. destruct HC as (vs & HS & E). injection E; intros ->. exists vs.
        split; [apply can_elements_iface; auto|]. unfold loop_iface.
        apply loop_outcome with (ctx := fun v => set_raw_rel m (Some v)) (same := fun m' => exists w, m' = set_raw_rel m w)
          (rec := fun v => extra_iface L (a_ret a) (set_raw_rel m (Some v))) (record := any_record L a); auto with port.
        -- intros v m1 t [w ->]. reflexivity.
        -- eauto.
        -- port.
        -- intros v e HE. unfold any_record in HE. simpl in HE. destruct (m_raw m); [|congruence]. destruct (a_prep a); [congruence|]. auto.
        -- exists (m_raw_rel m). symmetry. apply set_raw_rel_id.
      * apply parsed_contexts in HC; auto. destruct HC as (vs & HS & E). discriminate.
    + assert (HC : forall r, contexts L a m r -> exists vs, selected_bytes L a m vs /\ r = option_map (map (fun v => set_json_rel m (Some v))) vs).
      { intros r HC. unfold contexts in HC. destruct (m_raw m); [|auto]. destruct (a_prep a); [auto|]. destruct HM; discriminate. }
      apply quant_bytes_can; auto. right. destruct HO' as [(ms & HX & HO)|(HX & -> & ->)].
      * right. apply HC in HX. destruct HX as ([vs|] & HS & E); [|discriminate]. simpl in E. injection E; intros ->. exists vs.
        split; [apply can_elements_bytes; auto|]. unfold loop_bytes.
        apply loop_outcome with (ctx := fun v => set_json_rel m (Some v)) (same := fun m' => exists w, m' = set_json_rel m w)
          (rec := fun v => extra_bytes L (a_ret a) (set_json_rel m (Some v))) (record := any_record L a); auto with port.
        -- intros v m1 t [w ->]. reflexivity.
        -- eauto.
        -- port.
        -- intros v e HE. unfold any_record in HE. simpl in HE. destruct (m_raw m); [|auto]. destruct (a_prep a); [auto|]. destruct HM; discriminate.
        -- exists (m_json_rel m). symmetry. apply set_json_rel_id.
      * left. split; auto. apply HC in HX. destruct HX as ([vs|] & HS & E); [discriminate|]. apply can_elements_bytes; auto.
  - simpl in HO. destruct HO as [-> ->]. apply can_ret. auto.
  - simpl in HO. destruct HO as [-> ->]. apply can_ret. auto.
  - simpl in HO. destruct HO as (ord & t & s & HF & HO). pose proof (test_condition_msg _ _ _ _ _ _ HO) as E. exists ord, t, s. auto.
  - destruct HO.
Qed.

(** the values evaluation may return together with their extra data *)
Definition may_yield (n : node) (m : message) (b : bool) (x : extra) : Prop :=
  exists ord t s, fair ord /\ eval L ord n (mkEst m t) = (Some (b, x), s).
Theorem outcome_exact n m b x : tidy n ->
  (may_yield n m b x <-> tree_outcome L (leaf_outcome L) (contexts L) (any_record L) n m b x).
Proof.
  intro HT. split.
  - intros (ord & t & s & HF & H). apply eval_outcome in H; auto. destruct H as [_ H]. auto.
  - intro H. apply outcome_can in H; auto. destruct H as (ord & t & s & HF & H & _). exists ord, t, s. auto.
Qed.
Lemma may_return_can n m b : may_return L n m b <-> exists x, can (run n) m (Some (b, x)) m.
Proof.
  split.
  - intros (ord & t & x & s & HF & H). exists x. apply fix_msg. exists (e_msg s), ord, t, s. auto.
  - intros (x & ord & t & s & HF & H & _). exists ord, t, x, s. auto.
Qed.
Lemma may_panic_can n m : may_panic L n m <-> exists m', can (run n) m None m'.
Proof.
  split.
  - intros (ord & t & s & HF & H). exists (e_msg s), ord, t, s. auto.
  - intros (m' & ord & t & s & HF & H & _). exists ord, t, s. auto.
Qed.

(** ** Panics, part by part *)
Theorem and_panic ns m : may_panic L (NAnd ns) m <->
  exists before n after, ns = (before ++ n :: after)%list /\ Forall (fun n' => may_return L n' m true) before /\ may_panic L n m.
Proof.
  rewrite may_panic_can. cbn [eval].
  assert (G : forall ns acc, (exists m', can (fun ord => and_loop (map (eval L ord) ns) acc) m None m') ->
    exists before n after, ns = (before ++ n :: after)%list /\ Forall (fun n' => may_return L n' m true) before /\ may_panic L n m).
  { clear ns. induction ns as [|n ns IH]; intros acc [m' H]; simpl in H.
    - apply can_ret in H. destruct H; discriminate.
    - rewrite can_bind in H by port. destruct H as [([flag x] & m1 & H1 & H2)|[_ H]].
      + pose proof (can_same _ _ _ _ H1) as ->. destruct flag; [|apply can_ret in H2; destruct H2; discriminate].
        destruct (IH _ (ex_intro _ m' H2)) as (before & n1 & after & -> & HF & HP). exists (n :: before), n1, after. split; auto.
        split; auto. constructor; auto. apply may_return_can. eauto.
      + exists [], n, ns. split; auto. split; auto. apply may_panic_can. eauto. }
  split; [apply G|]. intros (before & n & after & -> & HF & HP).
  assert (HR : exists rs, Forall2 (fun n r => fst r = true /\ can (run n) m (Some r) m) before rs).
  { clear -HF. induction HF as [|n before H HF [rs IH]]; [exists []; auto|]. apply may_return_can in H. destruct H as [x H].
    exists ((true, x) :: rs). constructor; auto. }
  destruct HR as [rs HR]. apply may_panic_can in HP. destruct HP as [m' HP]. exists m'.
  eapply and_prefix_can; eauto. simpl. rewrite can_bind by port. auto.
Qed.

Theorem or_panic ns m : may_panic L (NOr ns) m <->
  exists before n after, ns = (before ++ n :: after)%list /\ Forall (fun n' => exists b, may_return L n' m b) before /\ may_panic L n m.
Proof.
  rewrite may_panic_can. cbn [eval].
  assert (G : forall ns out acc, (exists m', can (fun ord => or_loop (map (eval L ord) ns) out acc) m None m') ->
    exists before n after, ns = (before ++ n :: after)%list /\ Forall (fun n' => exists b, may_return L n' m b) before /\ may_panic L n m).
  { clear ns. induction ns as [|n ns IH]; intros out acc [m' H]; simpl in H.
    - apply can_ret in H. destruct H; discriminate.
    - rewrite can_bind in H by port. destruct H as [([flag x] & m1 & H1 & H2)|[_ H]].
      + pose proof (can_same _ _ _ _ H1) as ->.
        destruct (IH _ _ (ex_intro _ m' H2)) as (before & n1 & after & -> & HF & HP). exists (n :: before), n1, after. split; auto.
        split; auto. constructor; auto. exists flag. apply may_return_can. eauto.
      + exists [], n, ns. split; auto. split; auto. apply may_panic_can. eauto. }
  split; [apply G|]. intros (before & n & after & -> & HF & HP).
  assert (HR : exists rs, Forall2 (fun n r => can (run n) m (Some r) m) before rs).
  { clear -HF. induction HF as [|n before [b H] HF [rs IH]]; [exists []; auto|]. apply may_return_can in H. destruct H as [x H].
    exists ((b, x) :: rs). constructor; auto. }
  destruct HR as [rs HR]. apply may_panic_can in HP. destruct HP as [m' HP]. exists m'.
  eapply or_prefix_can; eauto. simpl. rewrite can_bind by port. auto.
Qed.

Theorem not_panic n m : may_panic L (NNot n) m <-> may_panic L n m.
Proof.
  rewrite !may_panic_can. cbn [eval]. split; intros [m' H].
  - rewrite can_bind in H by port. destruct H as [([flag x] & m1 & H1 & H2)|[_ H]]; [|eauto]. apply can_ret in H2. destruct H2; discriminate.
  - exists m'. rewrite can_bind by port. auto.
Qed.

Theorem quant_panic q a n m : m_raw m <> None -> a_prep a <> [] ->
  (may_panic L (NQuant q a n) m <->
   (exists m', can (fun ord => elements_iface L ord a) m None m') \/
   exists before v after, selected L a m (before ++ v :: after) /\
     Forall (fun v' => match q with
       | QAll => may_return L n (set_raw_rel m (Some v')) true
       | QAny => may_return L n (set_raw_rel m (Some v')) false \/
           (declared L a <> [] /\ may_return L n (set_raw_rel m (Some v')) true /\ extra_iface L (a_ret a) (set_raw_rel m (Some v')) <> None)
       end) before /\
     (may_panic L n (set_raw_rel m (Some v)) \/
      (q = QAny /\ may_return L n (set_raw_rel m (Some v)) true /\ r_paths (a_ret a) <> None /\
       extra_iface L (a_ret a) (set_raw_rel m (Some v)) = None))).
Proof.
  intros HM HP. rewrite may_panic_can, quant_iface_can by auto.
  assert (EL : forall vs, (exists m', can (loop_iface q a n vs) m None m') <->
    exists before v after, vs = (before ++ v :: after)%list /\ Forall (fun v' => match q with
       | QAll => may_return L n (set_raw_rel m (Some v')) true
       | QAny => may_return L n (set_raw_rel m (Some v')) false \/
           (declared L a <> [] /\ may_return L n (set_raw_rel m (Some v')) true /\ extra_iface L (a_ret a) (set_raw_rel m (Some v')) <> None)
       end) before /\
     (may_panic L n (set_raw_rel m (Some v)) \/
      (q = QAny /\ may_return L n (set_raw_rel m (Some v)) true /\ r_paths (a_ret a) <> None /\
       extra_iface L (a_ret a) (set_raw_rel m (Some v)) = None))).
  { intro vs. set (ctx := fun v => set_raw_rel m (Some v)). set (same := fun m' => exists w, m' = set_raw_rel m w).
    assert (H1 : forall v m1 t, same m1 -> set_raw_relative (Some v) (mkEst m1 t) = (Some tt, mkEst (ctx v) t)) by (intros v m1 t [w ->]; reflexivity).
    assert (H2 : forall v, same (ctx v)) by (intro v; unfold same, ctx; eauto).
    assert (H3 : same m) by (exists (m_raw_rel m); symmetry; apply set_raw_rel_id).
    assert (H4 : forall m1 r m2, can (run n) m1 (Some r) m2 -> m2 = m1) by (intros; eapply can_same; eauto).
    unfold loop_iface, quant_loop. destruct q.
    - set (getx := get_iface a). set (rec := fun v => extra_iface L (a_ret a) (ctx v)).
      assert (PG : portable (fun _ => getx)) by (unfold getx; port).
      rewrite (any_panic (fun v => set_raw_relative (Some v)) getx (fun ord => eval L ord n) ctx same rec); auto with port.
      2:{ destruct (r_paths (a_ret a)); auto. }
      unfold passes, breaks. split; intros (before & v & after & -> & HF & HB); exists before, v, after; split; auto; split.
      + eapply Forall_impl; [|exact HF]. intros w [HW|(EA & HW & HR)]; [left; apply may_return_can; auto|right].
        unfold declared. destruct (r_paths (a_ret a)) as [[|pp ps]|]; try discriminate. split; [discriminate|]. split; [apply may_return_can; auto|].
        destruct HR as [?|HR]; [discriminate|auto].
      + destruct HB as [HB|(HB & HG & HR)]; [left; apply may_panic_can; auto|right]. split; auto. split; [apply may_return_can; auto|].
        split; auto. destruct (r_paths (a_ret a)); congruence.
      + eapply Forall_impl; [|exact HF]. intros w [HW|(EA & HW & HR)]; [left; apply may_return_can in HW; auto|right].
        unfold declared in EA. destruct (r_paths (a_ret a)) as [[|pp ps]|]; try congruence. split; auto. split; [apply may_return_can in HW; auto|]. auto.
      + destruct HB as [HB|(_ & HB & HG & HR)]; [left; apply may_panic_can in HB; auto|right]. split; [apply may_return_can in HB; auto|].
        split; auto. destruct (r_paths (a_ret a)); congruence.
    - rewrite (all_panic (fun v => set_raw_relative (Some v)) (fun ord => eval L ord n) ctx same); auto with port.
      split; intros (before & v & after & -> & HF & HB); exists before, v, after; split; auto; split.
      + eapply Forall_impl; [|exact HF]. intros w HW. apply may_return_can. auto.
      + left. apply may_panic_can. auto.
      + eapply Forall_impl; [|exact HF]. intros w HW. apply may_return_can in HW. auto.
      + destruct HB as [HB|[HB _]]; [apply may_panic_can in HB; auto|discriminate]. }
  split.
  - intros [[_ H]|(vs & H1 & H2)]; [left; auto|right]. apply EL in H2. destruct H2 as (before & v & after & -> & HF & HB).
    exists before, v, after. split; auto. destruct H1 as (ord & t & s & HF1 & E & _). apply elements_iface_selected in E; auto.
  - intros [H|(before & v & after & HS & HF & HB)]; [left; auto|right]. exists (before ++ v :: after)%list.
    split; [apply can_elements_iface; auto|]. apply EL. exists before, v, after. auto.
Qed.

End WithLib.
