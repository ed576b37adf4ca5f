(** The evaluator computes the declarative truth value. *)
From Coq Require Import List String Ascii Bool Arith ZArith Permutation Lia.
From Verif Require Import Base GoStr GoStr_facts GoFloat Types Json StrUtils Validate Eval Spec_Tree Spec_Extra Tree_proofs.
Import ListNotations.
Open Scope string_scope.

(** ** has_prefix *)
Lemma has_prefix_starts p s : has_prefix s p = true <-> starts p s.
Proof. apply has_prefix_iff. Qed.

Section Truth.
Variable L : Lib.
Notation cond := (cond L).
Notation node := (node L).

Lemma relative_parent_spec p : relative_parent p = true <-> refers_to_element p.
Proof.
  unfold relative_parent, refers_to_element.
  rewrite !orb_true_iff, !has_prefix_starts, String.eqb_eq. tauto.
Qed.

Lemma assoc_keys {A} (m : list (string * A)) k : In k (map fst m) -> exists v, assoc k m = Some v.
Proof.
  induction m as [|[k' v] m IH]; simpl; [tauto|].
  destruct (String.eqb k k') eqn:E; eauto. intros [H|H]; auto.
  subst. rewrite String.eqb_refl in E. discriminate.
Qed.

Lemma singletons_entries m ks : Permutation ks (map fst m) -> entries m (singletons m ks).
Proof.
  intro HP. exists ks. split; auto.
  assert (H : forall k, In k ks -> In k (map fst m)) by (intros; eapply Permutation_in; eauto).
  clear HP. induction ks as [|k ks IH]; simpl; constructor.
  - destruct (assoc_keys m k) as [v Hv]; [apply H; simpl; auto|]. exists v. rewrite Hv. auto.
  - apply IH. intros; apply H; simpl; auto.
Qed.

Lemma flatten_some l r : flatten_arrays l = Some r -> exists ls, l = map GArr ls /\ r = List.concat ls.
Proof.
  revert r; induction l as [|x l IH]; simpl; intros r H.
  - injection H; intros; subst. exists []; auto.
  - destruct x; try discriminate. destruct (flatten_arrays l) as [r'|]; try discriminate.
    injection H; intros; subst. destruct (IH _ eq_refl) as (ls & -> & ->). exists (l0 :: ls); auto.
Qed.
Lemma flatten_none l : flatten_arrays l = None -> ~ exists ls, l = map GArr ls.
Proof.
  intros H [ls ->]. induction ls as [|x ls IH]; simpl in H; [discriminate|].
  destruct (flatten_arrays (map GArr ls)); [discriminate|auto].
Qed.

Lemma arrange_arranged ord v s es s' : fair ord -> arrange ord v s = (Some es, s') -> arranged v es.
Proof.
  intros HF H. unfold arrange in H. destruct v; minv; try constructor.
  - destruct (flatten_arrays l) as [r|] eqn:E.
    + destruct (flatten_some _ _ E) as (ls & -> & ->). constructor.
    + constructor. apply flatten_none; auto.
  - apply singletons_entries. apply HF.
Qed.

Lemma query_all_parts ord qs doc : fair ord -> forall s vs s', query_all L ord qs (Some doc) s = (Some vs, s') ->
  exists parts, Forall2 (fun q part => exists f, q = Some f /\ arranged (fst (jp_query L f doc)) part) qs parts
    /\ vs = List.concat parts.
Proof.
  intro HF. induction qs as [|q qs IH]; simpl; intros s vs s' H.
  - minv. exists []; auto.
  - destruct q as [f|]; minv. destruct (IH _ _ _ H1) as (parts & HP & ->).
    exists (a :: parts). simpl. split; auto. constructor; eauto. exists f; split; auto.
    eapply arrange_arranged; eauto.
Qed.

Lemma query_all_none ord qs s vs s' : query_all L ord qs None s = (Some vs, s') -> qs = [] /\ vs = [].
Proof. destruct qs as [|[]]; simpl; intro H; minv; auto. Qed.

Lemma elements_iface_selected ord a s vs s' : fair ord ->
  elements_iface L ord a s = (Some vs, s') -> selected L a (e_msg s) vs.
Proof.
  intros HF H. unfold elements_iface in H. minv. unfold selected.
  assert (Q : forall doc, query_all L ord (a_prep a) doc s = (Some vs, s') ->
     exists doc0 parts, (a_prep a <> [] -> doc = Some doc0) /\
       Forall2 (fun q part => exists f, q = Some f /\ arranged (fst (jp_query L f doc0)) part) (a_prep a) parts
       /\ vs = List.concat parts).
  { intros [doc|] HQ.
    - destruct (query_all_parts _ _ _ HF _ _ _ HQ) as (parts & HP & ->). exists doc, parts. auto.
    - destruct (query_all_none _ _ _ _ _ HQ) as [E0 ->]. rewrite E0. exists GNil, []. repeat split; auto; congruence. }
  destruct (relative_parent (a_parent a)) eqn:ER.
  - assert (ER' := proj1 (relative_parent_spec _) ER).
    destruct (String.eqb (a_parent a) "$RELATIVE*") eqn:EE.
    + destruct (m_raw_rel (e_msg s)) as [[]|] eqn:EM; minv. exists m. split; auto.
      apply singletons_entries. apply HF.
    + destruct (Q _ H) as (doc & parts & HD & HP & ->). exists doc, parts. split; auto.
      intros Hne. split; [auto|tauto].
  - assert (~ refers_to_element (a_parent a)) by (rewrite <- relative_parent_spec; congruence).
    destruct (String.eqb (a_parent a) "$RELATIVE*") eqn:EE.
    + exfalso. apply H0. right; left. apply String.eqb_eq; auto.
    + destruct (Q _ H) as (doc & parts & HD & HP & ->). exists doc, parts. split; auto.
      intros Hne. split; [tauto|auto].
Qed.

(** Elements selected from raw bytes: the texts found for the parent paths are gathered, an array of
    arrays is opened, and the result is cut into objects, or, for a single object, its entries. *)
Definition selected_bytes (a : aanode L) (m : message) (r : option (list string)) : Prop :=
  exists data failed, gather L (a_parents a) m "" true = Some (data, failed) /\
    if failed then r = None else
    exists d, unnest L data = Some d /\
      match d with
      | None => r = None
      | Some d =>
        match split_objects d with
        | Some l => r = Some l
        | None =>
          match json_parse_map L d with
          | None => r = None
          | Some obj => exists es, entries obj es /\ r = all_some (map (json_marshal L) es)
          end
        end
      end.

Lemma elements_bytes_selected ord a s r s' : fair ord ->
  elements_bytes L ord a s = (Some r, s') -> selected_bytes a (e_msg s) r.
Proof.
  intros HF H. unfold elements_bytes in H. minv. destruct a0 as [d f].
  exists d, f. split; auto. destruct f; minv; auto.
  exists a0. split; auto. destruct a0 as [d'|]; minv; auto.
  destruct (split_objects d'); minv; auto.
  unfold objects_of_map in H. destruct (json_parse_map L d') as [obj|]; minv; auto.
  eexists. split; [|reflexivity]. apply singletons_entries. apply HF.
Qed.

(** ** Order-free relations for leaves and contexts *)
Definition contexts (a : aanode L) (m : message) (r : option (list message)) : Prop :=
  match m_raw m, a_prep a with
  | Some _, _ :: _ => exists vs, selected L a m vs /\ r = Some (map (fun v => set_raw_rel m (Some v)) vs)
  | _, _ => exists vs, selected_bytes a m vs /\ r = option_map (map (fun v => set_json_rel m (Some v))) vs
  end.

(** a possible outcome of a condition, for some iteration order *)
Definition leaf_outcome (c : cond) (m : message) (b : bool) (x : extra) : Prop :=
  exists ord t s', fair ord /\ test_condition L ord c (mkEst m t) = (Some (b, x), s').
Definition leaf_truth (c : cond) (m : message) (b : bool) : Prop := exists x, leaf_outcome c m b x.

Lemma ev_contexts_contexts ord a m r : fair ord -> ev_contexts L ord a m r -> contexts a m r.
Proof.
  intro HF. unfold ev_contexts, contexts. destruct (m_raw m); [destruct (a_prep a)|];
  intros (t & vs & s' & H & ->); exists vs; split; auto.
  - apply elements_bytes_selected in H; auto.
  - apply elements_iface_selected in H; auto.
  - apply elements_bytes_selected in H; auto.
Qed.

Lemma ev_leaf_leaf ord c m b x : fair ord -> ev_leaf L ord c m b x -> leaf_outcome c m b x.
Proof. intros HF (t & s' & H). exists ord, t, s'. auto. Qed.

(** monotonicity of the description *)
Lemma Forall2_imp {A B} (P Q : A -> B -> Prop) l l' :
  (forall a b, P a b -> Q a b) -> Forall2 P l l' -> Forall2 Q l l'.
Proof. induction 2; constructor; auto. Qed.

Lemma map_app_inv_prop {A B} (f : A -> B) l l1 l2 :
  map f l = (l1 ++ l2)%list -> exists a b, l = (a ++ b)%list /\ l1 = map f a /\ l2 = map f b.
Proof.
  revert l; induction l1 as [|x l1 IH]; simpl; intros l H.
  - exists [], l; auto.
  - destruct l as [|y l]; [discriminate|]. simpl in H. injection H; intros.
    destruct (IH _ H0) as (a & b & -> & -> & ->). exists (y :: a), b. subst; auto.
Qed.

Lemma Forall2_map_l_inv {A B C} (f : A -> B) (P : B -> C -> Prop) l l' :
  Forall2 P (map f l) l' -> Forall2 (fun x y => P (f x) y) l l'.
Proof. revert l'; induction l; simpl; intros l' H; inversion H; subst; constructor; auto. Qed.

Lemma Forall_Forall2_imp {A B} (P Q : A -> B -> Prop) (l : list A) l' :
  Forall (fun a => forall b, P a b -> Q a b) l -> Forall2 P l l' -> Forall2 Q l l'.
Proof. intros H H2; induction H2; inversion H; subst; constructor; auto. Qed.

Section Mono.
Variables (lf1 lf2 : cond -> message -> bool -> extra -> Prop)
          (ct1 ct2 : aanode L -> message -> option (list message) -> Prop)
          (rc1 rc2 : aanode L -> message -> list (string * iface) -> Prop).
Hypothesis HL : forall c m b x, lf1 c m b x -> lf2 c m b x.
Hypothesis HC : forall a m r, ct1 a m r -> ct2 a m r.
Hypothesis HR : forall a m e, rc1 a m e -> rc2 a m e.

Lemma tree_outcome_mono n : forall m b x, tree_outcome L lf1 ct1 rc1 n m b x -> tree_outcome L lf2 ct2 rc2 n m b x.
Proof.
  induction n using node_ind'; simpl; intros m b x H0; auto.
  - destruct H0 as (ev & rest & rs & HE & HF & HB & HX).
    apply map_app_inv_prop in HE. destruct HE as (l1 & l2 & -> & -> & ->).
    exists (map (fun n' => tree_outcome L lf2 ct2 rc2 n' m) l1), (map (fun n' => tree_outcome L lf2 ct2 rc2 n' m) l2), rs.
    rewrite map_app. repeat split; auto.
    + apply Forall2_map_l. apply Forall2_map_l_inv in HF. apply Forall_app in H. destruct H.
      eapply Forall_Forall2_imp; [|exact HF]. simpl. eapply Forall_impl; [|exact H]. intros n Hn r. apply Hn.
    + destruct HB as [(-> & HB & HA)|HB]; [left|right]; auto. repeat split; auto. destruct l2; [auto|discriminate].
  - destruct H0 as (rs & HF & HB & HX). exists rs. repeat split; try apply HB; auto.
    apply Forall2_map_l. apply Forall2_map_l_inv in HF. eapply Forall_Forall2_imp; [|exact HF].
    simpl. eapply Forall_impl; [|exact H]. intros n Hn r. apply Hn.
  - destruct H0 as [-> [y Hy]]. eauto.
  - destruct H0 as [(ms & HM & HQ)|(HM & HB)]; [left|right; auto].
    exists ms. split; auto.
    assert (IM : forall (P : bool) ms, Forall (fun m => exists y, tree_outcome L lf1 ct1 rc1 n m P y) ms ->
                  Forall (fun m => exists y, tree_outcome L lf2 ct2 rc2 n m P y) ms).
    { intros P ms0 H. eapply Forall_impl; [|exact H]. intros m0 [y Hy]; eauto. }
    destruct q; simpl in *.
    + unfold any_outcome in *. destruct (declared L a).
      * destruct HQ as [(-> & -> & HF)|(-> & bf & m0 & af & -> & HF & [y Hy] & HX)]; [left|right]; auto.
        split; auto. exists bf, m0, af. repeat split; eauto.
      * destruct HQ as (bs & HF & HB & HX). exists bs. repeat split; try apply HB.
        -- eapply Forall2_imp; [|exact HF]. intros m0 b0 [y Hy]; eauto.
        -- eapply Forall2_imp; [|exact HX]. auto.
    + destruct HQ as (-> & [(-> & HF)|(-> & bf & m0 & af & -> & HF & [y Hy])]).
      * split; auto.
      * split; auto. right; split; auto. exists bf, m0, af. repeat split; eauto.
Qed.
End Mono.

(** record of ANY on the current element *)
Definition any_record (a : aanode L) (m : message) (e : list (string * iface)) : Prop :=
  match m_raw m, a_prep a with
  | Some _, _ :: _ => extra_iface L (a_ret a) m = Some e
  | _, _ => extra_bytes L (a_ret a) m = Some e
  end.

Theorem eval_outcome ord n s b x s' : fair ord ->
  eval L ord n s = (Some (b, x), s') ->
  e_msg s' = e_msg s /\ tree_outcome L leaf_outcome contexts any_record n (e_msg s) b x.
Proof.
  intros HF H. apply eval_describes in H. destruct H as [H1 H2]. split; auto.
  eapply tree_outcome_mono; [| | |exact H2].
  - intros; eapply ev_leaf_leaf; eauto.
  - intros; eapply ev_contexts_contexts; eauto.
  - intros a m e. auto.
Qed.

(** ** From outcomes to truth *)
Lemma fold_and {A} (P : A -> Prop) l : fold_right (fun a p => P a /\ p) True l <-> Forall P l.
Proof. induction l; simpl; split; auto; [intros [? ?]; constructor; tauto | intro H; inversion H; tauto]. Qed.
Lemma fold_or {A} (P : A -> Prop) l : fold_right (fun a p => P a \/ p) False l <-> Exists P l.
Proof.
  induction l; simpl; split.
  - tauto.
  - intro H; inversion H.
  - intros [?|?]; [left|right; tauto]; auto.
  - intro H; inversion H; tauto.
Qed.

Notation truth' := (truth L leaf_truth contexts).

Lemma outcome_truth rc n : forall m b x, tree_outcome L leaf_outcome contexts rc n m b x -> truth' n m b.
Proof.
  induction n using node_ind'; simpl; intros m b x H0.
  - destruct H0 as (ev & rest & rs & HE & HF & HB & HX).
    apply map_app_inv_prop in HE. destruct HE as (l1 & l2 & -> & -> & ->).
    apply Forall2_map_l_inv in HF. apply Forall_app in H. destruct H as [H _].
    destruct HB as [(-> & HB & HA)|(-> & rs0 & r & -> & Hr & HA)].
    + destruct l2; [|discriminate]. rewrite app_nil_r. apply fold_and.
      clear HX HB. induction HF; constructor; inversion H; inversion HA; subst; auto.
      match goal with E : fst _ = _ |- _ => rewrite E in * end; eauto.
    + apply fold_or. apply Exists_app. left.
      apply Forall2_app_inv_r in HF. destruct HF as (a1 & a2 & HF1 & HF2 & ->).
      apply Exists_app. right. inversion HF2; subst. left.
      apply Forall_app in H. destruct H as [_ H]. inversion H; subst. match goal with E : fst _ = _ |- _ => rewrite E in * end; eauto.
  - destruct H0 as (rs & HF & HB & HX). apply Forall2_map_l_inv in HF.
    destruct b.
    + apply fold_or. destruct HB as [HB _]. specialize (HB eq_refl). clear HX.
      induction HF; inversion HB; inversion H; subst.
      * left. match goal with E : fst _ = _ |- _ => rewrite E in * end; eauto.
      * right. auto.
    + apply fold_and. assert (HN : Forall (fun r : bool * extra => fst r = false) rs).
      { apply Forall_forall. intros r Hr. destruct (fst r) eqn:E; auto. exfalso.
        assert (false = true) by (apply HB; apply Exists_exists; eauto). discriminate. }
      clear HX HB. induction HF; constructor; inversion H; inversion HN; subst; auto.
      match goal with E : fst _ = _ |- _ => rewrite E in * end; eauto.
  - destruct H0 as [_ [y Hy]]. eauto.
  - destruct H0 as [(ms & HM & HQ)|(HM & -> & _)]; [left|right; auto].
    exists ms. split; auto.
    assert (IM : forall (P : bool) ms, Forall (fun m => exists y, tree_outcome L leaf_outcome contexts rc n m P y) ms ->
                  Forall (fun m => truth' n m P) ms).
    { intros P ms0 H. eapply Forall_impl; [|exact H]. intros m0 [y Hy]; eauto. }
    destruct q; simpl in *.
    + unfold any_outcome in HQ. destruct (declared L a).
      * destruct HQ as [(-> & -> & HF)|(-> & bf & m0 & af & -> & HF & [y Hy] & HX)]; auto.
        apply Exists_app; right; left; eauto.
      * destruct HQ as (bs & HF & HB & HX). destruct b.
        -- destruct HB as [HB _]. specialize (HB eq_refl). clear HX HM.
           induction HF; simpl in HB; [tauto|]. destruct HB as [->|HB]; [left|right; auto].
           destruct H as [z Hz]; eauto.
        -- assert (HN : ~ In true bs) by (intro HI; apply HB in HI; discriminate).
           clear HX HM HB. induction HF; constructor.
           ++ destruct H as [z Hz]. destruct y; [exfalso; apply HN; simpl; auto|]. eauto.
           ++ apply IHHF. intro HI; apply HN; simpl; auto.
    + destruct HQ as (-> & [(-> & HF)|(-> & bf & m0 & af & -> & HF & [y Hy])]); auto.
      apply Exists_app; right; left; eauto.
  - tauto.
  - tauto.
  - exists x. auto.
  - tauto.
Qed.

Theorem eval_truth ord n s b x s' : fair ord ->
  eval L ord n s = (Some (b, x), s') -> truth' n (e_msg s) b.
Proof. intros HF H. apply eval_outcome in H; auto. destruct H as [_ H]. eapply outcome_truth; eauto. Qed.

(** ** Uniqueness of the truth value *)
Lemma entries_perm m es es' : entries m es -> entries m es' -> Permutation es es'.
Proof.
  intros (ks & HP & HF) (ks' & HP' & HF').
  assert (E : forall ks es, Forall2 (fun k e => exists v, assoc k m = Some v /\ e = GMapS [(k, v)]) ks es ->
    es = map (fun k => GMapS [(k, match assoc k m with Some v => v | None => GNil end)]) ks).
  { clear. induction 1; simpl; auto. destruct H as (v & -> & ->). congruence. }
  rewrite (E _ _ HF), (E _ _ HF'). apply Permutation_map.
  eapply Permutation_trans; [exact HP|]. apply Permutation_sym; auto.
Qed.

Lemma map_GArr_inj ls ls' : map GArr ls = map GArr ls' -> ls = ls'.
Proof.
  revert ls'; induction ls as [|x ls IH]; intros [|y ls'] H; simpl in H; try discriminate; auto.
  injection H; intros. f_equal; auto.
Qed.

Lemma arranged_perm v es es' : arranged v es -> arranged v es' -> Permutation es es'.
Proof.
  intros H H'. inversion H; subst; inversion H'; subst; auto.
  - eapply entries_perm; eauto.
  - apply map_GArr_inj in H1. subst; auto.
  - exfalso; eauto.
  - exfalso; eauto.
Qed.

Lemma Permutation_concat {A} (p p' : list (list A)) :
  Forall2 (@Permutation A) p p' -> Permutation (List.concat p) (List.concat p').
Proof. induction 1; simpl; auto. apply Permutation_app; auto. Qed.

Lemma refers_dec p : refers_to_element p \/ ~ refers_to_element p.
Proof. rewrite <- relative_parent_spec. destruct (relative_parent p); auto. Qed.

Lemma selected_perm a m vs vs' : selected L a m vs -> selected L a m vs' -> Permutation vs vs'.
Proof.
  unfold selected. destruct (String.eqb (a_parent a) "$RELATIVE*").
  - intros (o & E & H) (o' & E' & H'). rewrite E in E'. injection E'; intros; subst.
    eapply entries_perm; eauto.
  - intros (doc & parts & HD & HF & ->) (doc' & parts' & HD' & HF' & ->).
    apply Permutation_concat.
    assert (HE : a_prep a <> [] -> doc = doc').
    { intro Hne. specialize (HD Hne); specialize (HD' Hne).
      destruct (refers_dec (a_parent a)) as [HR|HR].
      - destruct HD as [HD _], HD' as [HD' _]. specialize (HD HR); specialize (HD' HR). congruence.
      - destruct HD as [_ HD], HD' as [_ HD']. specialize (HD HR); specialize (HD' HR). congruence. }
    destruct (a_prep a) as [|q qs]; [inversion HF; inversion HF'; auto|].
    rewrite <- (HE ltac:(discriminate)) in HF'. clear HE HD HD'.
    revert parts' HF'. induction HF; intros parts' HF'; inversion HF'; subst; constructor; auto.
    destruct H as (f & -> & HA), H2 as (f' & E & HA'). injection E; intros; subst.
    eapply arranged_perm; eauto.
Qed.

Lemma all_some_perm {A} (l l' : list (option A)) : Permutation l l' ->
  match all_some l, all_some l' with
  | Some r, Some r' => Permutation r r'
  | None, None => True
  | _, _ => False
  end.
Proof.
  induction 1; simpl; auto.
  - destruct x; auto. destruct (all_some l), (all_some l'); simpl; auto.
  - destruct x, y; auto; destruct (all_some l); simpl; auto. constructor.
  - destruct (all_some l), (all_some l'), (all_some l''); try tauto. eapply Permutation_trans; eauto.
Qed.

Definition perm_option {A} (r r' : option (list A)) : Prop :=
  match r, r' with
  | Some x, Some y => Permutation x y
  | None, None => True
  | _, _ => False
  end.

Lemma perm_option_refl {A} (r : option (list A)) : perm_option r r.
Proof. destruct r; simpl; auto. Qed.

Lemma selected_bytes_perm a m r r' : selected_bytes a m r -> selected_bytes a m r' -> perm_option r r'.
Proof.
  intros (d & f & E & H) (d' & f' & E' & H'). rewrite E in E'. injection E'; intros; subst.
  destruct f'; [subst; apply perm_option_refl|].
  destruct H as (x & EX & H), H' as (x' & EX' & H'). rewrite EX in EX'. injection EX'; intros; subst.
  destruct x' as [x|]; [|subst; apply perm_option_refl].
  destruct (split_objects x); [subst; apply perm_option_refl|].
  destruct (json_parse_map L x) as [obj|]; [|subst; apply perm_option_refl].
  destruct H as (es & HE & ->), H' as (es' & HE' & ->).
  pose proof (all_some_perm _ _ (Permutation_map (json_marshal L) (entries_perm _ _ _ HE HE'))) as HP.
  unfold perm_option. destruct (all_some _), (all_some _); auto.
Qed.

Lemma contexts_perm a m r r' : contexts a m r -> contexts a m r' -> perm_option r r'.
Proof.
  unfold contexts. destruct (m_raw m); [destruct (a_prep a)|]; intros (vs & HS & ->) (vs' & HS' & ->);
  try (pose proof (selected_bytes_perm _ _ _ _ HS HS') as HP; destruct vs, vs'; simpl in *; auto;
       apply Permutation_map; auto).
  simpl. apply Permutation_map. eapply selected_perm; eauto.
Qed.

(** a condition that does not read $KEY/$VALUE of a multi-entry object has one outcome *)
Lemma fair_short ord n ks ord' n' : fair ord -> fair ord' -> (List.length ks <= 1)%nat -> ord n ks = ord' n' ks.
Proof.
  intros HF HF' HL. pose proof (HF n ks) as H. pose proof (HF' n' ks) as H'.
  destruct ks as [|k [|k2 ks]]; simpl in HL; try lia.
  - apply Permutation_sym, Permutation_nil in H. apply Permutation_sym, Permutation_nil in H'. congruence.
  - apply Permutation_sym, Permutation_length_1_inv in H. apply Permutation_sym, Permutation_length_1_inv in H'. congruence.
Qed.


Lemma fst_mbind {A B} (x y : M A) (f g : A -> M B) s s' :
  fst (x s) = fst (y s') -> (forall a t t', fst (f a t) = fst (g a t')) ->
  fst (mbind x f s) = fst (mbind y g s').
Proof.
  unfold mbind. destruct (x s) as [[a|] t], (y s') as [[a'|] t']; simpl; intros E H; try discriminate; auto.
  injection E; intros; subst. apply H.
Qed.

Lemma fst_mbind_msg {B} (f : message -> M B) m t : fst (mbind mmsg f (mkEst m t)) = fst (f m (mkEst m t)).
Proof. reflexivity. Qed.

Lemma get_key_value_iface_functional c q v ord ord' s s' : fair ord -> fair ord' ->
  (forall obj, v = GMapS obj -> (List.length obj <= 1)%nat) ->
  fst (get_key_value_iface L ord c q v s) = fst (get_key_value_iface L ord' c q v s').
Proof.
  intros HF HF' HO. unfold get_key_value_iface. destruct v; auto.
  apply fst_mbind.
  - simpl. f_equal. apply fair_short; auto. unfold keys. rewrite map_length. auto.
  - intros [|k ks] t t'; auto. destruct (String.eqb _ "$KEY"); auto.
    destruct (assoc k m); auto. destruct (String.eqb _ "$VALUE"); auto.
Qed.

Lemma test_json_iface_functional c q m ord ord' s s' : fair ord -> fair ord' ->
  (reads_entry L c -> one_entry m) ->
  fst (test_json_iface L ord c q m s) = fst (test_json_iface L ord' c q m s').
Proof.
  intros HF HF' HU. unfold test_json_iface. destruct (negb _); auto.
  destruct (j_rel (c_jp c)) eqn:ER.
  - destruct (m_raw_rel m) as [v|] eqn:EM; auto.
    destruct (String.eqb _ "$KEY" || has_prefix _ "$VALUE")%bool eqn:EK.
    + apply fst_mbind.
      * apply get_key_value_iface_functional; auto. intros obj ->. apply HU; auto.
        split; auto. apply orb_true_iff in EK. rewrite String.eqb_eq, has_prefix_starts in EK. auto.
      * intros a t t'. destruct (snd a); auto.
    + destruct (snd _); auto.
  - destruct (m_raw m); auto. destruct (snd _); auto.
Qed.

Lemma test_condition_functional c m ord ord' t t' : fair ord -> fair ord' ->
  (reads_entry L c -> one_entry m) ->
  fst (test_condition L ord c (mkEst m t)) = fst (test_condition L ord' c (mkEst m t')).
Proof.
  intros HF HF' HU. unfold test_condition. rewrite !fst_mbind_msg.
  repeat match goal with
  | |- fst ((if ?b then _ else _) _) = _ => destruct b; [first [reflexivity | idtac]|]
  end; auto; try (apply fst_mbind; [reflexivity|intros; reflexivity]).
  - destruct (m_enc_version m); auto. apply fst_mbind; [reflexivity|intros; reflexivity].
  - apply fst_mbind.
    + destruct (m_raw m); [destruct (j_prep (c_jp c))|]; auto. apply test_json_iface_functional; auto.
    + intros a s s'. destruct (r_paths _); auto. destruct a; auto.
      apply fst_mbind; [reflexivity|intros; reflexivity].
Qed.

Lemma leaf_outcome_functional c m b x b' x' : (reads_entry L c -> one_entry m) ->
  leaf_outcome c m b x -> leaf_outcome c m b' x' -> b = b' /\ x = x'.
Proof.
  intros HU (ord & t & s & HF & H) (ord' & t' & s' & HF' & H').
  pose proof (test_condition_functional c m ord ord' t t' HF HF' HU) as E.
  rewrite H, H' in E. simpl in E. injection E; auto.
Qed.

Lemma Forall_Exists_contra {A} (P Q : A -> Prop) l l' :
  Permutation l l' -> (forall a, In a l -> P a -> Q a -> False) -> Forall P l -> Exists Q l' -> False.
Proof.
  intros HP HC HF HE. apply Exists_exists in HE. destruct HE as (a & Ha & HQ).
  assert (In a l) by (eapply Permutation_in; [apply Permutation_sym|]; eauto).
  rewrite Forall_forall in HF. eauto.
Qed.

Lemma truth_functional n : forall m, unambiguous L contexts n m ->
  truth' n m true -> truth' n m false -> False.
Proof.
  induction n using node_ind'; simpl; intros m HU HT HF; try discriminate.
  - apply fold_and in HU. apply fold_and in HT. apply fold_or in HF.
    eapply (Forall_Exists_contra (fun a => truth' a m true)); [apply Permutation_refl| |exact HT|exact HF].
    simpl. intros a Ha H1 H2. rewrite Forall_forall in H, HU. eapply H; eauto.
  - apply fold_and in HU. apply fold_or in HT. apply fold_and in HF.
    eapply (Forall_Exists_contra (fun a => truth' a m false)); [apply Permutation_refl| |exact HF|exact HT].
    simpl. intros a Ha H1 H2. rewrite Forall_forall in H, HU. eapply H; eauto.
  - eauto.
  - destruct HT as [(ms & HC & HT)|[_ E]]; [|discriminate].
    assert (HI : forall a, In a ms -> truth' n a true -> truth' n a false -> False).
    { intros m0 Hm0. apply IHn. specialize (HU _ HC). rewrite Forall_forall in HU. auto. }
    destruct HF as [(ms' & HC' & HF)|[HC' _]]; pose proof (contexts_perm _ _ _ _ HC HC') as HP; simpl in HP; [|tauto].
    destruct q.
    + eapply (Forall_Exists_contra (fun a => truth' n a false)); [apply Permutation_sym; exact HP| |exact HF|exact HT].
      simpl. intros m1 Ha H1 H2. eapply HI; eauto. eapply Permutation_in; [apply Permutation_sym|]; eauto.
    + eapply (Forall_Exists_contra (fun a => truth' n a true)); [exact HP| |exact HT|exact HF].
      simpl. eauto.
  - destruct HT as [x HT], HF as [y HF]. destruct (leaf_outcome_functional _ _ _ _ _ _ HU HT HF). discriminate.
  - tauto.
Qed.

(** ** Order independence *)
Theorem eval_order_independent ord ord' n m t t' b x b' x' s s' :
  fair ord -> fair ord' -> unambiguous L contexts n m ->
  eval L ord n (mkEst m t) = (Some (b, x), s) ->
  eval L ord' n (mkEst m t') = (Some (b', x'), s') -> b = b'.
Proof.
  intros HF HF' HU H H'. apply eval_truth in H; auto. apply eval_truth in H'; auto. simpl in *.
  destruct b, b'; auto; exfalso; eapply truth_functional; eauto.
Qed.

(** Entries of an object have one entry, so $KEY and $VALUE are unambiguous there. *)
Lemma entries_one_entry obj es : entries obj es -> Forall (fun e => exists k v, e = GMapS [(k, v)]) es.
Proof.
  intros (ks & _ & HF). induction HF; constructor; auto. destruct H as (v & _ & ->). eauto.
Qed.

End Truth.
