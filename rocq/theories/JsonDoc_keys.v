(** Rules read from JSON documents in which keys occur more than once. *)
From Coq Require Import List String Ascii Bool Arith ZArith Lia.
From Verif Require Import Base GoStr GoFloat Types Json StrUtils Validate Prepare Parse Marshal Lifecycle Lifecycle_proofs
  Spec_Tree Spec_Load Load_proofs JsonDoc Spec_JsonDoc JsonDoc_proofs JsonDoc_structs JsonDoc_rules Spec_JsonKeys.
Import ListNotations.
Open Scope string_scope.
Local Arguments String.prefix : simpl never.

(** ** Reading a struct, entry by entry *)
Inductive run {A} (fields : list (string * (json -> A -> P (A * bool)))) : list (string * json) -> A -> A -> Prop :=
| rn_nil a : run fields [] a a
| rn_skip key j m a a' : jd_field fields key = None -> run fields m a a' -> run fields ((key, j) :: m) a a'
| rn_step key j m f a a1 a' t t' : jd_field fields key = Some f -> f j a t = (Ok (a1, false), t') -> run fields m a1 a' -> run fields ((key, j) :: m) a a'.
(** and the values of one key *)
Inductive steps {B} (h : json -> B -> P (B * bool)) (k : string) : list (string * json) -> B -> B -> Prop :=
| ss_nil b : steps h k [] b b
| ss_other key j m b b' : ~ same_key key k -> steps h k m b b' -> steps h k ((key, j) :: m) b b'
| ss_here key j m b b1 b' t t' : same_key key k -> h j b t = (Ok (b1, false), t') -> steps h k m b1 b' -> steps h k ((key, j) :: m) b b'.

Section Struct.
Context {A : Type} (fields : list (string * (json -> A -> P (A * bool)))).
Hypothesis HN : named fields.
Lemma members_run m : forall a t a' t', jd_members fields m a t = (Ok (a', false), t') -> run fields m a a'.
Proof.
  induction m as [|[k j] m IH]; intros a t a' t' H.
  - cbn in H. apply pret_ok in H. destruct H as [H _]. injection H as <-. constructor.
  - apply members_cons in H. destruct H as [[H1 H2]|(f & a1 & b1 & b2 & t1 & HF & H1 & H2 & HB)]; [eapply rn_skip; eauto|]. destruct b1, b2; try discriminate HB. eapply rn_step; eauto.
Qed.
Lemma run_app m1 m2 a a1 a' : run fields m1 a a1 -> run fields m2 a1 a' -> run fields (m1 ++ m2) a a'.
Proof. induction 1; intro; [auto|eapply rn_skip; eauto|eapply rn_step; eauto]. Qed.
Lemma run_part {B} (g : A -> B) set h k m a a' : In (k, jd_part g set h) fields -> (forall a b, g (set a b) = b) ->
  (forall k' f', k' <> k -> In (k', f') fields -> keeps g f') -> run fields m a a' -> steps h k m (g a) (g a').
Proof.
  intros HF HG HK H. induction H as [a|key j m a a' HX H IH|key j m f a a1 a' t t' HX HE H IH].
  - constructor.
  - apply ss_other; auto. intro HS. assert (E : jd_field fields key = Some (jd_part g set h)) by (apply field_iff; eauto). congruence.
  - apply field_iff in HX; auto. destruct HX as (n & HS & HI). destruct (string_dec n k) as [->|NE].
    + assert (E : jd_field fields key = Some (jd_part g set h)) by (apply field_iff; eauto). assert (E' : jd_field fields key = Some f) by (apply field_iff; eauto).
      assert (f = jd_part g set h) as -> by congruence. apply part_inv in HE. destruct HE as (b & HE & ->). rewrite HG in IH. eapply ss_here; eauto.
    + rewrite (HK n f NE HI _ _ _ _ _ _ HE) in IH. apply ss_other; auto. intro HS'. assert (E : jd_field fields key = Some (jd_part g set h)) by (apply field_iff; eauto).
      assert (E' : jd_field fields key = Some f) by (apply field_iff; eauto). assert (f = jd_part g set h) as -> by congruence.
      assert (EX : fold_text n = fold_text k) by (apply same_key_iff, (same_key_trans _ key); auto; apply same_key_sym; auto). destruct (named_same fields n _ k _ HN HI HF EX). contradiction.
Qed.
Lemma steps_struct k m a a' : steps (jd_struct fields) k m a a' -> exists es, merged k m es /\ run fields es a a'.
Proof.
  induction 1 as [a|key j m a a' HS H (es & H1 & H2)|key j m a a1 a' t t' HS HE H (es & H1 & H2)].
  - exists []. split; constructor.
  - exists es. split; [apply mg_other|]; auto.
  - unfold jd_struct in HE. destruct j as [|b|n|raw s|raw l|raw o]; try (apply pret_ok in HE; destruct HE as [HE _]; try discriminate HE).
    + injection HE as <-. exists es. split; auto. apply mg_null; auto.
    + exists (o ++ es)%list. split; [apply mg_object; auto|]. apply members_run in HE. eapply run_app; eauto.
Qed.
End Struct.

(** ** What counts *)
Lemma no_key_skip key j (m : list (string * json)) k : ~ same_key key k -> no_key m k -> no_key ((key, j) :: m) k.
Proof. intros HS HN j' (key' & HS' & [E|HI]); [injection E as -> ->; auto|apply (HN j'); exists key'; auto]. Qed.
Lemma at_cons key j m k j' : at_key ((key, j) :: m) k j' -> (same_key key k /\ j' = j) \/ at_key m k j'.
Proof. intros (key' & HS & [E|HI]); [injection E as -> ->; auto|right; exists key'; auto]. Qed.
Lemma steps_last {B} (h : json -> B -> P (B * bool)) k (R : json -> B -> Prop) m b b' : (forall j b t b1 t', h j b t = (Ok (b1, false), t') -> R j b1) ->
  steps h k m b b' -> last_counts m k b R b'.
Proof.
  intros HR H. induction H as [b|key j m b b' HS H [IH1 IH2]|key j m b b1 b' t t' HS HE H [IH1 IH2]].
  - split; [intros j (? & _ & [])|]. left. split; [intros j (? & _ & [])|reflexivity].
  - split; [intros j' HJ; apply at_cons in HJ; destruct HJ as [[HX _]|HJ]; [contradiction|auto]|].
    destruct IH2 as [[H1 H2]|(j' & (l1 & key' & l2 & -> & K1 & K2) & HJ)].
    + left. split; auto. apply no_key_skip; auto.
    + right. exists j'. split; auto. exists ((key, j) :: l1), key', l2. auto.
  - split; [intros j' HJ; apply at_cons in HJ; destruct HJ as [[_ ->]|HJ]; [eauto|auto]|]. right.
    destruct IH2 as [[H1 ->]|(j' & (l1 & key' & l2 & -> & K1 & K2) & HJ)].
    + exists j. split; [exists [], key, m; auto|eauto].
    + exists j'. split; auto. exists ((key, j) :: l1), key', l2. auto.
Qed.
Lemma steps_given {B} (h : json -> B -> P (B * bool)) k (R : json -> B -> Prop) m b b' : 
  (forall j b t b1 t', h j b t = (Ok (b1, false), t') -> (j = JNull /\ b1 = b) \/ (j <> JNull /\ R j b1)) ->
  steps h k m b b' -> last_given m k b R b'.
Proof.
  intros HR H. induction H as [b|key j m b b' HS H [IH1 IH2]|key j m b b1 b' t t' HS HE H [IH1 IH2]].
  - split; [intros j (? & _ & [])|]. left. split; [intros j (? & _ & [])|reflexivity].
  - split; [intros j' HJ; apply at_cons in HJ; destruct HJ as [[HX _]|HJ]; [contradiction|auto]|].
    destruct IH2 as [[H1 H2]|(l1 & key' & j' & l2 & -> & K1 & K2 & K3 & K4)].
    + left. split; auto. intros j' HJ. apply at_cons in HJ. destruct HJ as [[HX _]|HJ]; [contradiction|auto].
    + right. exists ((key, j) :: l1), key', j', l2. auto.
  - apply HR in HE. split; [intros j' HJ; apply at_cons in HJ; destruct HJ as [[_ ->]|HJ]; [destruct HE as [[-> _]|[_ HE]]; eauto|auto]|].
    destruct IH2 as [[H1 ->]|(l1 & key' & j' & l2 & -> & K1 & K2 & K3 & K4)].
    + destruct HE as [[-> ->]|[HJ HE]].
      * left. split; auto. intros j' HJ. apply at_cons in HJ. destruct HJ as [[_ ->]|HJ]; auto.
      * right. exists [], key, j, m. auto.
    + right. exists ((key, j) :: l1), key', j', l2. auto.
Qed.
Lemma string_given j b t b1 t' : jd_lift jd_string j b t = (Ok (b1, false), t') -> (j = JNull /\ b1 = b) \/ (j <> JNull /\ text_of j b1).
Proof.
  intro H. apply lift_ok in H. destruct H as [H _]. destruct j as [|x|x|raw s|raw l|raw m]; cbn in H; try discriminate H; injection H as <-; [left; auto|right]. split; [discriminate|exists raw; reflexivity].
Qed.
Lemma bool_given j b t b1 t' : jd_lift jd_bool j b t = (Ok (b1, false), t') -> (j = JNull /\ b1 = b) \/ (j <> JNull /\ flag_of j b1).
Proof.
  intro H. apply lift_ok in H. destruct H as [H _]. destruct j as [|x|x|raw s|raw l|raw m]; cbn in H; try discriminate H; injection H as <-; [left; auto|right]. split; [discriminate|reflexivity].
Qed.

(** ** Maps *)
Lemma entries_app m1 : forall m2 old es, jd_entries (m1 ++ m2) old = (es, false) <-> exists mid, jd_entries m1 old = (mid, false) /\ jd_entries m2 mid = (es, false).
Proof.
  induction m1 as [|[k j] m1 IH]; intros m2 old es; cbn [app jd_entries].
  - split; [eauto|]. intros (mid & E & H). injection E as ->. exact H.
  - destruct (jd_string j "") as [s bad]. destruct (jd_entries (m1 ++ m2) (upsert k s old)) as [r bad'] eqn:E. split.
    + intro H. injection H as <- HB. destruct bad, bad'; try discriminate HB. apply IH in E. destruct E as (mid & E1 & E2). exists mid. rewrite E1. auto.
    + intros (mid & H1 & H2). destruct (jd_entries m1 (upsert k s old)) as [r' bad''] eqn:E1. injection H1 as -> HB. destruct bad, bad''; try discriminate HB.
      assert (EX : jd_entries (m1 ++ m2) (upsert k s old) = (es, false)) by (apply IH; eauto). rewrite E in EX. injection EX as -> ->. reflexivity.
Qed.
Lemma upsert_in {A} k (a : A) l n s : NoDup (keys l) -> In (n, s) (upsert k a l) <-> (n = k /\ s = a) \/ (n <> k /\ In (n, s) l).
Proof.
  induction l as [|[k' a'] l IH]; cbn [upsert]; intro HN.
  - split; [intros [E|[]]; injection E as -> ->; auto|]. intros [[-> ->]|[_ []]]. left. reflexivity.
  - inversion HN as [|? ? HX HN']; subst. destruct (String.eqb_spec k k') as [->|NE]; cbn [In].
    + split.
      * intros [E|HI]; [injection E as -> ->; auto|]. right. split; auto. intros ->. apply HX. apply in_map_iff. exists (k', s). auto.
      * intros [[-> ->]|[HN'' [E|HI]]]; auto. injection E as -> ->. contradiction.
    + rewrite (IH HN'). split.
      * intros [E|[[-> ->]|[H1 H2]]]; auto. injection E as -> ->. right. auto.
      * intros [[-> ->]|[H1 [E|H2]]]; auto.
Qed.
Lemma entries_filled m : forall old es, NoDup (keys old) -> jd_entries m old = (es, false) -> NoDup (keys es) /\
  forall n s, In (n, s) es <-> (~ In n (keys m) /\ In (n, s) old) \/ exists j, last_entry m n j /\ says_text j s.
Proof.
  induction m as [|[k j] m IH]; intros old es HN H; cbn [jd_entries] in H.
  - injection H as <-. split; auto. intros n s. split; [auto|]. intros [[_ H]|(j & ([|? ?] & l2 & E & _) & _)]; auto; discriminate E.
  - destruct (jd_string j "") as [x bad] eqn:ES. destruct (jd_entries m (upsert k x old)) as [r bad'] eqn:EM. injection H as <- HB. destruct bad, bad'; try discriminate HB. apply text_iff in ES.
    pose proof (proj1 (keys_upsert k x old HN)) as HN'. destruct (IH _ _ HN' EM) as [IH1 IH2]. split; auto. intros n s. rewrite IH2, (upsert_in k x old n s HN). cbn [keys map fst In]. split.
    + intros [[H1 [[-> ->]|[H2 H3]]]|(j' & (l1 & l2 & -> & H2) & H3)].
      * right. exists j. split; auto. exists [], m. auto.
      * left. split; auto. intros [E|HI]; [congruence|auto].
      * right. exists j'. split; auto. exists ((k, j) :: l1), l2. auto.
    + intros [[H1 H2]|(j' & (l1 & l2 & E & H2) & H3)].
      * left. split; [intro HI; apply H1; auto|]. right. split; auto.
      * destruct l1 as [|e l1]; cbn [app] in E; [injection E as -> -> ->|injection E as <- ->].
        -- left. split; auto. left. split; auto. exact (text_fun _ _ _ ES H3).
        -- right. exists j'. split; auto. exists l1, l2. auto.
Qed.
Lemma steps_map k m : forall es, steps (jd_lift jd_map) k m [] es -> map_filled m k es.
Proof.
  assert (HX : forall m b es, steps (jd_lift jd_map) k m b es ->
    (exists l1 l2 added, m = (l1 ++ l2)%list /\ (exists l key, l1 = (l ++ [(key, JNull)])%list /\ same_key key k) /\ ~ at_key l2 k JNull /\ merged k l2 added /\ jd_entries added [] = (es, false)) \/
    exists added, ~ at_key m k JNull /\ merged k m added /\ jd_entries added b = (es, false)).
  { clear m. intros m b es H. induction H as [b|key j m b b' HS H IH|key j m b b1 b' t t' HS HE H IH].
    - right. exists []. split; [intros (? & _ & [])|]. split; [constructor|reflexivity].
    - destruct IH as [(l1 & l2 & added & -> & (l & key' & -> & K1) & K2 & K3 & K4)|(added & K1 & K2 & K3)].
      + left. exists ((key, j) :: l ++ [(key', JNull)])%list, l2, added. split; auto. split; [exists ((key, j) :: l), key'; auto|auto].
      + right. exists added. split; [intro HJ; apply at_cons in HJ; destruct HJ as [[? _]|?]; contradiction|]. split; auto. constructor; auto.
    - destruct IH as [(l1 & l2 & added & -> & (l & key' & -> & K1) & K2 & K3 & K4)|(added & K1 & K2 & K3)].
      + left. exists ((key, j) :: l ++ [(key', JNull)])%list, l2, added. split; auto. split; [exists ((key, j) :: l), key'; auto|auto].
      + apply lift_ok in HE. destruct HE as [HE _]. destruct j as [|x|x|raw s|raw l|raw o]; cbn [jd_map] in HE; try discriminate HE.
        * injection HE as <-. left. exists [(key, JNull)], m, added. split; auto. split; [exists [], key; auto|auto].
        * right. exists (o ++ added)%list. split; [intro HJ; apply at_cons in HJ; destruct HJ as [[_ ?]|?]; [discriminate|contradiction]|]. split; [apply mg_object; auto|]. apply entries_app. eauto. }
  intros es H. assert (HF : forall added, jd_entries added [] = (es, false) -> NoDup (keys es) /\ forall n s, In (n, s) es <-> exists j, last_entry added n j /\ says_text j s).
  { intros added E. destruct (entries_filled added [] es (NoDup_nil _) E) as [H1 H2]. split; auto. intros n s. rewrite H2. split; [intros [[_ []]|HJ]; auto|auto]. }
  apply HX in H. destruct H as [(l1 & l2 & added & -> & K0 & K2 & K3 & K4)|(added & K1 & K2 & K3)].
  - destruct (HF _ K4). exists l1, l2, added. split; [reflexivity|]. split; [right; exact K0|]. auto.
  - destruct (HF _ K3). exists [], m, added. split; [reflexivity|]. auto.
Qed.

(** ** Rules *)
Ltac steps_of H HN g k :=
  let F := match type of H with run ?F _ _ _ => F end in
  let HO := fresh "HO" in
  let K := fresh "K" in
  assert (K : forall k' f', k' <> k -> In (k', f') F -> keeps g f') by other_fields;
  pose proof H as HO; eapply (run_part F HN g _ _ k) in HO; [|find_field|intros ? ?b; repeat (destruct b as [b ?]); reflexivity|exact K]; clear K.
Section WithLib.
Variable L : Lib.
Variable ord : order.
Variable re_text : option (string -> option (RE L)).
Variable exp_in : json -> P (expanded L * bool).
Hypothesis fair_ord : fair ord.
Lemma regex_counts j b t b1 t' : jd_regex L re_text j b t = (Ok (b1, false), t') -> expression_of L re_text j b1.
Proof.
  unfold jd_regex. intro H. destruct j as [|x|x|raw s|raw l|raw m].
  - apply pret_ok in H. destruct H as [H _]. injection H as <-. constructor.
  - apply pret_ok in H. destruct H as [H _]. discriminate H.
  - apply pret_ok in H. destruct H as [H _]. discriminate H.
  - destruct re_text as [f|] eqn:ER; [|apply pret_ok in H; destruct H as [H _]; discriminate H]. destruct (f s) as [e|] eqn:EF; apply pret_ok in H; destruct H as [H _]; [|discriminate H].
    injection H as <-. exact (eo_text L _ f raw s e eq_refl EF).
  - apply pret_ok in H. destruct H as [H _]. discriminate H.
  - destruct re_text as [f|] eqn:ER; apply pret_ok in H; destruct H as [H _]; [discriminate H|]. injection H as <-. constructor. reflexivity.
Qed.
Notation fields := (jrule_fields L ord re_text exp_in).
Lemma side_read nk tk k m b b' : fold_text nk <> fold_text tk /\ fold_text nk <> "-" /\ fold_text tk <> "-" -> steps (jd_struct (jside_fields L exp_in nk tk)) k m b b' -> b = ("", "", []) ->
  names_read m k nk tk (fst (fst b')) (snd (fst b')).
Proof.
  intros HK H ->. pose proof (side_named L exp_in nk tk HK) as HN. apply steps_struct in H. destruct H as (es & HM & HR). exists es. split; auto.
  assert (K : forall k' f' (g : jside L -> string) k0, g = (fun s => fst (fst s)) /\ k0 = nk \/ g = (fun s => snd (fst s)) /\ k0 = tk -> k' <> k0 -> In (k', f') (jside_fields L exp_in nk tk) -> keeps g f').
  { intros k' f' g k0 HG NE HF. destruct HG as [[-> ->]|[-> ->]]; destruct HF as [E'|[E'|[E'|[]]]]; injection E' as <- <-; first [congruence | apply part_keeps; reflexivity]. }
  split.
  - eapply (steps_given (jd_lift jd_string) _ text_of); [exact string_given|]. eapply (run_part _ HN (fun s : jside L => fst (fst s)) _ _ nk es _ b') in HR; [exact HR|left; reflexivity|reflexivity|eauto].
  - eapply (steps_given (jd_lift jd_string) _ text_of); [exact string_given|]. eapply (run_part _ HN (fun s : jside L => snd (fst s)) _ _ tk es _ b') in HR; [exact HR|right; left; reflexivity|reflexivity|eauto].
Qed.
Lemma resource_read k m b b' : steps (jd_struct (jresource_fields L re_text)) k m b b' -> b = ("", "", None) ->
  names_read m k "resourceName" "resourceType" (snd (fst b')) (fst (fst b')) /\ exists es, merged k m es /\ last_counts es "-" None (expression_of L re_text) (snd b').
Proof.
  intros H ->. pose proof (resource_named L re_text) as HN. apply steps_struct in H. destruct H as (es & HM & HR). split; [|exists es; split; auto].
  - exists es. split; auto. split.
    + steps_of HR HN (fun s : jresource L => snd (fst s)) "resourceName". eapply steps_given; [exact string_given|exact HO].
    + steps_of HR HN (fun s : jresource L => fst (fst s)) "resourceType". eapply steps_given; [exact string_given|exact HO].
  - steps_of HR HN (fun s : jresource L => snd s) "-". eapply steps_last; [exact regex_counts|exact HO].
Qed.
Lemma rule_keys m t r t' : jd_members fields m (empty_rule L) t = (Ok (r, false), t') -> rule_read L re_text m r.
Proof.
  intro H. pose proof (rule_named L ord re_text exp_in) as HN. apply members_run in H.
  assert (HQ : names_read m "resource" "resourceName" "resourceType" (ru_resource_name r) (ru_resource_type r) /\ exists es, merged "resource" m es /\ last_counts es "-" None (expression_of L re_text) (ru_resource_regex r)).
  { steps_of H HN (fun r : rule L => (ru_resource_type r, ru_resource_name r, ru_resource_regex r)) "resource". apply resource_read in HO; auto. }
  constructor.
  - steps_of H HN (@ru_id L) "ruleID". eapply steps_given; [exact string_given|exact HO].
  - steps_of H HN (fun r : rule L => (ru_sender_name r, ru_sender_type r, ru_sender_list r)) "sender". apply side_read in HO; auto. repeat split; discriminate.
  - steps_of H HN (fun r : rule L => (ru_receiver_name r, ru_receiver_type r, ru_receiver_list r)) "receiver". apply side_read in HO; auto. repeat split; discriminate.
  - steps_of H HN (@ru_protocol L) "protocol". eapply steps_given; [exact string_given|exact HO].
  - apply HQ.
  - steps_of H HN (@ru_operation L) "operation". eapply steps_given; [exact string_given|exact HO].
  - steps_of H HN (@ru_tree L) "conditions". eapply steps_last; [|exact HO]. intros j b u b1 u' E. exact (conditions_sound L ord fair_ord _ _ _ _ _ E).
  - steps_of H HN (@ru_decision L) "decision". eapply steps_given; [exact string_given|exact HO].
  - steps_of H HN (@ru_metadata L) "metadata". apply steps_map. exact HO.
  - steps_of H HN (@ru_hash L) "hash". eapply steps_given; [exact string_given|exact HO].
  - steps_of H HN (@ru_operation_regex L) "operationRegex". eapply steps_last; [exact regex_counts|exact HO].
  - apply HQ.
  - steps_of H HN (@ru_converted L) "-". eapply steps_given; [exact bool_given|exact HO].
Qed.
Theorem rule_last s raw m t r t' : is_document (JObj raw m) s -> json_rule L ord re_text exp_in s t = (Ok r, t') -> rule_read L re_text m r.
Proof.
  intros HS H. apply read_iff in HS. unfold json_rule in H. rewrite HS in H. unfold jd_finish in H. apply pbind_ok in H. destruct H as ([a bad] & t1 & H1 & H2).
  destruct bad; apply pret_ok in H2; destruct H2 as [H2 _]; [discriminate H2|]. injection H2 as <-. exact (rule_keys _ _ _ _ H1).
Qed.
Theorem rules_last s raw d raw' l t rs t' : is_document (JObj raw d) s -> distinct d -> at_key d "rules" (JArr raw' l) -> json_rules L ord re_text exp_in s t = (Ok rs, t') ->
  Forall2 (fun j r => forall raw m, j = JObj raw m -> rule_read L re_text m r) l rs.
Proof.
  intros HS HD HK H. apply read_iff in HS. unfold json_rules in H. rewrite HS in H. unfold jd_finish in H. apply pbind_ok in H. destruct H as ([a bad] & t1 & H1 & H2).
  destruct bad; apply pret_ok in H2; destruct H2 as [H2 _]; [discriminate H2|]. injection H2 as <-. cbn [jd_rules jd_struct] in H1.
  pose proof (struct_field _ (outer_named L ord re_text exp_in) (fun x => x) "rules" _ d (or_introl eq_refl) ltac:(intros k' f' NE [E|[]]; injection E as <- _; congruence) _ _ _ _ HD H1) as HO. cbn beta in HO.
  destruct HO as [[HN _]|(j & HJ & a1 & u1 & a2 & u2 & _ & HX & <-)]; [destruct (HN _ HK)|]. rewrite (at_key_unique d "rules" _ _ HD HK HJ) in HX. cbn [jd_slice] in HX. clear -HX fair_ord.
  revert u1 a2 u2 HX. induction l as [|j l IH]; intros u1 a2 u2 HX.
  - cbn in HX. apply pret_ok in HX. destruct HX as [HX _]. injection HX as <-. constructor.
  - apply items_cons in HX. destruct HX as (r & rs' & t1 & -> & H1 & H2). constructor; [|eapply IH; eauto]. intros raw m ->. exact (rule_keys _ _ _ _ H1).
Qed.
End WithLib.
