(** Proofs about the evaluation of trees. *)
From Coq Require Import List String Ascii Bool Arith ZArith Permutation Lia.
From Verif Require Import Base GoStr GoFloat Types Json StrUtils Validate Eval Spec_Tree Spec_Extra.
Import ListNotations.
Open Scope string_scope.

(** ** Inversion of the monad *)
Lemma mbind_some {A B} (x : M A) (f : A -> M B) s b s' :
  mbind x f s = (Some b, s') -> exists a s1, x s = (Some a, s1) /\ f a s1 = (Some b, s').
Proof. unfold mbind. destruct (x s) as [[a|] s1]; intro H; [eauto | discriminate]. Qed.

Lemma mret_some {A} (a b : A) s s' : mret a s = (Some b, s') -> b = a /\ s' = s.
Proof. unfold mret; intro H; injection H; auto. Qed.

Lemma mopt_some {A} (o : option A) b s s' : mopt o s = (Some b, s') -> o = Some b /\ s' = s.
Proof. unfold mopt; intro H; injection H; auto. Qed.

Lemma mmsg_some m s s' : mmsg s = (Some m, s') -> m = e_msg s /\ s' = s.
Proof. unfold mmsg; intro H; injection H; auto. Qed.

Lemma mset_some m u s s' : mset m s = (Some u, s') -> s' = mkEst m (e_tick s).
Proof. unfold mset; intro H; injection H; auto. Qed.

Lemma mrange_some {A} ord (x : list (string * A)) ks s s' :
  mrange ord x s = (Some ks, s') -> ks = ord (e_tick s) (keys x) /\ s' = mkEst (e_msg s) (S (e_tick s)).
Proof. unfold mrange; intro H; injection H; auto. Qed.

Lemma mpanic_some {A} s (a : A) s' : mpanic s = (Some a, s') -> False.
Proof. discriminate. Qed.

Ltac minv :=
  repeat (match goal with
  | H : mret _ _ = (Some _, _) |- _ => apply mret_some in H; destruct H
  | H : mopt _ _ = (Some _, _) |- _ => apply mopt_some in H; destruct H
  | H : mmsg _ = (Some _, _) |- _ => apply mmsg_some in H; destruct H
  | H : mset _ _ = (Some _, _) |- _ => apply mset_some in H
  | H : mrange _ _ _ = (Some _, _) |- _ => apply mrange_some in H; destruct H
  | H : mpanic _ = (Some _, _) |- _ => destruct (mpanic_some _ _ _ H)
  | H : (_, _) = (_, _) |- _ => injection H; clear H; intros
  | H : Some _ = Some _ |- _ => injection H; clear H; intros
  | H : mbind _ _ _ = (Some _, _) |- _ =>
      let a := fresh "a" in let s := fresh "s" in let H1 := fresh "H" in
      apply mbind_some in H; destruct H as (a & s & H1 & H)
  end; subst).

(** ** Induction on trees *)
Section NodeInd.
Variable L : Lib.
Variable P : node L -> Prop.
Hypothesis HAnd : forall ns, Forall P ns -> P (NAnd ns).
Hypothesis HOr : forall ns, Forall P ns -> P (NOr ns).
Hypothesis HNot : forall n, P n -> P (NNot n).
Hypothesis HQuant : forall q a n, P n -> P (NQuant q a n).
Hypothesis HTrue : P NTrue.
Hypothesis HFalse : P NFalse.
Hypothesis HCond : forall c, P (NCond c).
Hypothesis HNil : P NNil.
Fixpoint node_ind' (n : node L) : P n :=
  match n with
  | NAnd ns => HAnd ns ((fix go l : Forall P l :=
      match l with [] => Forall_nil P | x :: l' => Forall_cons x (node_ind' x) (go l') end) ns)
  | NOr ns => HOr ns ((fix go l : Forall P l :=
      match l with [] => Forall_nil P | x :: l' => Forall_cons x (node_ind' x) (go l') end) ns)
  | NNot n' => HNot n' (node_ind' n')
  | NQuant q a n' => HQuant q a n' (node_ind' n')
  | NTrue => HTrue
  | NFalse => HFalse
  | NCond c => HCond c
  | NNil => HNil
  end.
End NodeInd.

(** ** The relative fields *)
Lemma set_raw_rel_id m : set_raw_rel m (m_raw_rel m) = m.
Proof. destruct m; reflexivity. Qed.
Lemma set_json_rel_id m : set_json_rel m (m_json_rel m) = m.
Proof. destruct m; reflexivity. Qed.
Lemma set_raw_rel_twice m a b : set_raw_rel (set_raw_rel m a) b = set_raw_rel m b.
Proof. reflexivity. Qed.
Lemma set_json_rel_twice m a b : set_json_rel (set_json_rel m a) b = set_json_rel m b.
Proof. reflexivity. Qed.

Section Proofs.
Variable L : Lib.
Variable ord : order.
Notation cond := (cond L).
Notation node := (node L).

(** ** Leaves do not touch the message *)
Lemma get_key_value_iface_msg c q v s r s' :
  get_key_value_iface L ord c q v s = (Some r, s') -> e_msg s' = e_msg s.
Proof.
  unfold get_key_value_iface. destruct v; intro H; minv; try reflexivity.
  destruct (ord (e_tick s) (keys m)); minv; auto.
  destruct (String.eqb _ "$KEY"); minv; auto.
  destruct (assoc _ m); minv. destruct (String.eqb _ "$VALUE"); minv; auto.
Qed.

Lemma test_json_iface_msg c q m s r s' :
  test_json_iface L ord c q m s = (Some r, s') -> e_msg s' = e_msg s.
Proof.
  unfold test_json_iface.
  assert (F : forall (x : iface * bool) s s', (if snd x then mret (empty_result L c)
      else mopt (compare_iface L c (iface_text L (fst x)))) s = (Some r, s') -> s' = s).
  { intros x t t'. destruct (snd x); intro H; minv; auto. }
  destruct (negb _); intro H; minv; auto.
  destruct (j_rel _); [destruct (m_raw_rel m) as [v|] | destruct (m_raw m) as [v|]]; minv; auto;
    try (apply F in H; subst; auto; fail).
  destruct (String.eqb _ "$KEY" || has_prefix _ "$VALUE")%bool; minv.
  - apply F in H. subst. eapply get_key_value_iface_msg; eauto.
  - apply F in H. subst; auto.
Qed.

Lemma test_condition_msg c s r s' :
  test_condition L ord c s = (Some r, s') -> e_msg s' = e_msg s.
Proof.
  unfold test_condition. intro H. minv.
  repeat match goal with
  | H : (if ?b then _ else _) _ = _ |- _ => destruct b
  end; minv; auto.
  - destruct (m_enc_version (e_msg s)); minv; auto.
  - assert (E : e_msg s0 = e_msg s).
    { destruct (m_raw (e_msg s)), (j_prep (c_jp c)); minv; auto.
      eapply test_json_iface_msg; eauto. }
    destruct (r_paths _); minv; auto. destruct a; minv; auto.
Qed.

Lemma arrange_msg v s r s' : arrange ord v s = (Some r, s') -> e_msg s' = e_msg s.
Proof. unfold arrange. destruct v; intro H; minv; auto. Qed.

Lemma query_all_msg qs doc : forall s r s', query_all L ord qs doc s = (Some r, s') -> e_msg s' = e_msg s.
Proof.
  induction qs as [|q qs IH]; simpl; intros s r s' H; minv; auto.
  destruct q, doc; minv. apply arrange_msg in H0. apply IH in H1. congruence.
Qed.

Lemma elements_iface_msg a s r s' : elements_iface L ord a s = (Some r, s') -> e_msg s' = e_msg s.
Proof.
  unfold elements_iface. intro H; minv.
  destruct (relative_parent _); [destruct (String.eqb _ _)|].
  - destruct (m_raw_rel _) as [[]|]; minv; auto.
  - eapply query_all_msg; eauto.
  - eapply query_all_msg; eauto.
Qed.

Lemma objects_of_map_msg d s r s' : objects_of_map L ord d s = (Some r, s') -> e_msg s' = e_msg s.
Proof. unfold objects_of_map. destruct (json_parse_map L d); intro H; minv; auto. Qed.

Lemma elements_bytes_msg a s r s' : elements_bytes L ord a s = (Some r, s') -> e_msg s' = e_msg s.
Proof.
  unfold elements_bytes. intro H; minv. destruct a0 as [d f]. destruct f; minv; auto.
  destruct a0; minv; auto. destruct (split_objects _); minv; auto.
  eapply objects_of_map_msg; eauto.
Qed.

(** ** Loops.  A property of the results is carried with the restored message. *)
Definition step := M (bool * extra).
(** on return, [e] leaves the message as it was and its outcome satisfies [R] *)
Definition describes (e : step) (R : message -> bool -> extra -> Prop) : Prop :=
  forall s b x s', e s = (Some (b, x), s') -> e_msg s' = e_msg s /\ R (e_msg s) b x.

Lemma and_loop_ok m es (Rs : list (message -> bool -> extra -> Prop)) :
  Forall2 describes es Rs ->
  forall acc s b x s', e_msg s = m -> and_loop es acc s = (Some (b, x), s') ->
  e_msg s' = m /\
  exists evaluated rest rs,
    map (fun R : message -> bool -> extra -> Prop => R m) Rs = (evaluated ++ rest)%list /\
    Forall2 (fun (f : bool -> extra -> Prop) r => f (fst r) (snd r)) evaluated rs /\
    ((b = true /\ rest = [] /\ Forall (fun r => fst r = true) rs)
     \/ (b = false /\ exists rs0 r, rs = (rs0 ++ [r])%list /\ fst r = false /\ Forall (fun r : bool * extra => fst r = true) rs0)) /\
    last_non_empty (acc :: map snd rs) x.
Proof.
  induction 1 as [|e R es Rs He Hes IH]; simpl; intros acc s b x s' Hm H.
  - minv. split; auto. exists [], [], []. simpl. repeat split; auto.
    destruct acc; [left; auto | right; split; [discriminate|]]. exists [], []; auto.
  - minv. destruct a as [flag y]. destruct (He _ _ _ _ H0) as [E HR].
    set (acc' := match y with [] => acc | _ :: _ => y end) in *.
    assert (LN : forall rs x, last_non_empty (acc' :: rs) x -> last_non_empty (acc :: y :: rs) x).
    { intros rs z [[-> Hz]|(Hz & before & after & Heq & Hafter)].
      - left. split; auto. inversion Hz; subst. subst acc'. destruct y; [|discriminate].
        constructor; auto.
      - right. split; auto. destruct before as [|w before]; simpl in Heq.
        + injection Heq; intros; subst. subst acc'. destruct y.
          * exists [], ([] :: after); simpl; split; auto.
          * exists [acc], after; simpl; split; auto.
        + injection Heq; intros; subst. exists (acc :: y :: before), after. simpl; auto. }
    destruct flag.
    + destruct (IH acc' s0 b x s' ltac:(congruence) H) as (E2 & ev & rest & rs & HM & HF & HB & HL).
      split; [congruence|]. exists (R (e_msg s) :: ev), rest, ((true, y) :: rs).
      simpl. rewrite HM. repeat split; auto.
      destruct HB as [(-> & -> & HA)|(-> & rs0 & r & -> & Hr & HA)].
      * left; repeat split; auto.
      * right; split; auto. exists ((true, y) :: rs0), r. simpl; auto.
    + minv. split; [congruence|].
      exists [R (e_msg s)], (map (fun R0 : message -> bool -> extra -> Prop => R0 (e_msg s)) Rs), [(false, y)]. simpl.
      repeat split; auto.
      * right. split; auto. exists [], (false, y); simpl; auto.
      * apply LN. unfold acc'. destruct y as [|r0 y0].
        -- destruct acc; [left; auto|right; split; [discriminate|]; exists [], []; auto].
        -- right; split; [discriminate|]; exists [], []; auto.
Qed.

Lemma last_non_empty_cons_nil rs x : last_non_empty ([] :: rs) x -> last_non_empty rs x.
Proof.
  intros [[-> H]|(Hx & before & after & Heq & Ha)].
  - left; inversion H; auto.
  - right; split; auto. destruct before; simpl in Heq; injection Heq; intros; subst; [congruence|eauto].
Qed.

Lemma or_loop_ok m es (Rs : list (message -> bool -> extra -> Prop)) :
  Forall2 describes es Rs ->
  forall out acc s b x s', e_msg s = m -> or_loop es out acc s = (Some (b, x), s') ->
  e_msg s' = m /\
  exists rs : list (bool * extra),
    Forall2 (fun (f : bool -> extra -> Prop) r => f (fst r) (snd r)) (map (fun R : message -> bool -> extra -> Prop => R m) Rs) rs /\
    (b = true <-> out = true \/ Exists (fun r => fst r = true) rs) /\
    x = (acc ++ List.concat (map snd (filter fst rs)))%list.
Proof.
  induction 1 as [|e R es Rs He Hes IH]; simpl; intros out acc s b x s' Hm H.
  - minv. split; auto. exists []. simpl. rewrite app_nil_r. repeat split; auto.
    intros [?|HE]; auto. inversion HE.
  - minv. destruct a as [flag y]. destruct (He _ _ _ _ H0) as [E HR].
    destruct (IH _ _ s0 b x s' ltac:(congruence) H) as (E2 & rs & HF & HB & HX).
    split; [congruence|]. exists ((flag, y) :: rs). simpl. repeat split; auto.
    + rewrite HB. intros [O|O].
      * apply orb_true_iff in O. destruct O; auto.
      * right; apply Exists_cons_tl; auto.
    + rewrite HB. intros [O|O].
      * left; rewrite O; auto.
      * inversion O; subst; simpl in *; subst; [left; apply orb_true_r | right; auto].
    + subst x. destruct flag; simpl; auto. rewrite <- app_assoc; auto.
Qed.

(** messages differing from [m] only in the relative field addressed by [ctx] *)
Lemma any_loop_ok {V} (ctx : V -> message) (same : message -> Prop) (set : V -> M unit)
    (a : aanode L) (getx : M (list (string * iface))) (record : message -> list (string * iface) -> Prop)
    inner R (vals : list V) :
  (forall v s u s', same (e_msg s) -> set v s = (Some u, s') -> e_msg s' = ctx v) ->
  (forall v, same (ctx v)) ->
  describes inner R ->
  (forall s e s', same (e_msg s) -> getx s = (Some e, s') -> s' = s /\ record (e_msg s) e) ->
  forall result acc s b x s', same (e_msg s) ->
  any_loop set (match r_paths (a_ret a) with Some _ => Some getx | None => None end)
      (match r_paths (a_ret a) with Some (_ :: _) => true | _ => false end) inner vals result acc s
    = (Some (b, x), s') ->
  same (e_msg s') /\
  match r_paths (a_ret a) with
  | Some (_ :: _) =>
    exists bs, Forall2 (fun v b => exists y, R (ctx v) b y) vals bs /\
      (b = true <-> result = true \/ In true bs) /\
      exists x', x = (acc ++ x')%list /\
        Forall2 record (map fst (filter snd (combine (map ctx vals) bs))) x'
  | other =>
    (b = result /\ x = acc /\ Forall (fun v => exists y, R (ctx v) false y) vals)
    \/ (b = true /\ exists before v after, vals = (before ++ v :: after)%list /\
          Forall (fun v => exists y, R (ctx v) false y) before /\ (exists y, R (ctx v) true y) /\
          (other = None -> x = acc))
  end.
Proof.
  intros Hset Hsame Hin Hget. induction vals as [|v vals IH]; simpl; intros result acc s b x s' Hs H.
  - minv. split; auto. destruct (r_paths (a_ret a)) as [[|]|]; auto.
    exists []. simpl. repeat split; auto. intros [?|[]]; auto. exists []. rewrite app_nil_r; auto.
  - minv. destruct a1 as [flag y].
    pose proof (Hset _ _ _ _ Hs H0) as E1.
    destruct (Hin _ _ _ _ H1) as [E2 HR]. rewrite E1 in HR, E2.
    destruct flag.
    + destruct (r_paths (a_ret a)) as [[|p ps]|] eqn:EP; minv.
      * match goal with HG : getx s1 = _ |- _ => destruct (Hget s1 _ _ ltac:(rewrite E2; auto) HG) as [-> _] end. split; [rewrite E2; auto|]. right; split; auto.
        exists [], v, vals. simpl; repeat split; eauto. discriminate.
      * destruct (Hget _ _ _ ltac:(rewrite E2; auto) H3) as [-> HX].
        destruct (IH true _ s1 b x s' ltac:(rewrite E2; auto) H) as (ES & bs & HF & HB & x' & -> & HXs).
        split; auto. exists (true :: bs). simpl. repeat split; auto.
        -- constructor; eauto.
        -- rewrite HB. auto.
        -- exists (a2 :: x'). rewrite <- app_assoc. split; auto. constructor; auto. rewrite <- E2; auto.
      * split; [rewrite E2; auto|]. right; split; auto. exists [], v, vals. simpl; repeat split; eauto.
    + destruct (IH result acc s1 b x s' ltac:(rewrite E2; auto) H) as (ES & HH).
      split; auto. destruct (r_paths (a_ret a)) as [[|p ps]|] eqn:EP.
      * destruct HH as [(-> & -> & HF)|(-> & before & w & after & -> & HF & HW & _)].
        -- left; repeat split; auto. constructor; eauto.
        -- right; split; auto. exists (v :: before), w, after. simpl; repeat split; eauto. discriminate.
      * destruct HH as (bs & HF & HB & x' & -> & HXs).
        exists (false :: bs). simpl. repeat split; eauto.
        -- rewrite HB. intros [?|?]; auto.
        -- rewrite HB. intros [?|[?|?]]; auto. discriminate.
      * destruct HH as [(-> & -> & HF)|(-> & before & w & after & -> & HF & HW & HX)].
        -- left; repeat split; auto. constructor; eauto.
        -- right; split; auto. exists (v :: before), w, after. simpl; repeat split; eauto.
Qed.

Lemma all_loop_ok {V} (ctx : V -> message) (same : message -> Prop) (set : V -> M unit)
    inner R (vals : list V) :
  (forall v s u s', same (e_msg s) -> set v s = (Some u, s') -> e_msg s' = ctx v) ->
  (forall v, same (ctx v)) ->
  describes inner R ->
  forall s b x s', same (e_msg s) -> all_loop set inner vals s = (Some (b, x), s') ->
  same (e_msg s') /\ x = [] /\
  ((b = true /\ Forall (fun v => exists y, R (ctx v) true y) vals)
   \/ (b = false /\ exists before v after, vals = (before ++ v :: after)%list /\
         Forall (fun v => exists y, R (ctx v) true y) before /\ (exists y, R (ctx v) false y))).
Proof.
  intros Hset Hsame Hin. induction vals as [|v vals IH]; simpl; intros s b x s' Hs H.
  - minv. repeat split; auto.
  - minv. destruct a0 as [flag y].
    pose proof (Hset _ _ _ _ Hs H0) as E1.
    destruct (Hin _ _ _ _ H1) as [E2 HR]. rewrite E1 in HR, E2.
    destruct flag.
    + destruct (IH s1 b x s' ltac:(rewrite E2; auto) H) as (ES & -> & HH).
      repeat split; auto. destruct HH as [(-> & HF)|(-> & before & w & after & -> & HF & HW)].
      * left; split; auto. constructor; eauto.
      * right; split; auto. exists (v :: before), w, after. simpl; eauto.
    + minv. split; [rewrite E2; auto|]. split; auto. right; split; auto.
      exists [], v, vals; simpl; eauto.
Qed.

(** ** Contexts of ANY/ALL as computed by the evaluator *)
Definition ev_contexts (a : aanode L) (m : message) (r : option (list message)) : Prop :=
  match m_raw m, a_prep a with
  | Some _, _ :: _ =>
    exists t vs s', elements_iface L ord a (mkEst m t) = (Some vs, s') /\
      r = Some (map (fun v => set_raw_rel m (Some v)) vs)
  | _, _ =>
    exists t vs s', elements_bytes L ord a (mkEst m t) = (Some vs, s') /\
      r = option_map (map (fun v => set_json_rel m (Some v))) vs
  end.

Definition ev_leaf (c : cond) (m : message) (b : bool) (x : extra) : Prop :=
  exists t s', test_condition L ord c (mkEst m t) = (Some (b, x), s').

Definition ev_record (a : aanode L) (m : message) (e : list (string * iface)) : Prop :=
  match m_raw m, a_prep a with
  | Some _, _ :: _ => extra_iface L (a_ret a) m = Some e
  | _, _ => extra_bytes L (a_ret a) m = Some e
  end.

Lemma est_eta s : s = mkEst (e_msg s) (e_tick s).
Proof. destruct s; auto. Qed.

Lemma Forall_map_iff {A B} (f : A -> B) P l : Forall P (map f l) <-> Forall (fun x => P (f x)) l.
Proof. rewrite !Forall_forall. split; intros H x Hx.
  - apply H. apply in_map; auto.
  - apply in_map_iff in Hx. destruct Hx as (y & <- & Hy); auto. Qed.

Lemma Forall2_map_l {A B C} (f : A -> B) (P : B -> C -> Prop) l l' :
  Forall2 (fun x y => P (f x) y) l l' -> Forall2 P (map f l) l'.
Proof. induction 1; simpl; constructor; auto. Qed.


Lemma quant_finish {V} (q : quant) (a : aanode L) (ctx : V -> message) (same : message -> Prop) (set : V -> M unit)
    (getx : M (list (string * iface))) inner R vals s b x s' :
  (forall v s u s', same (e_msg s) -> set v s = (Some u, s') -> e_msg s' = ctx v) ->
  (forall v, same (ctx v)) ->
  describes inner R ->
  (forall s e s', same (e_msg s) -> getx s = (Some e, s') -> s' = s /\ ev_record a (e_msg s) e) ->
  same (e_msg s) ->
  quant_loop L q a set getx inner vals s = (Some (b, x), s') ->
  same (e_msg s') /\
  match q with
  | QAny => any_outcome L ev_record a R (map ctx vals) b x
  | QAll => all_outcome R (map ctx vals) b x
  end.
Proof.
  intros Hset Hsame Hin Hget Hs H. destruct q; simpl in H.
  - apply any_loop_ok with (ctx := ctx) (same := same) (record := ev_record a) (R := R) in H; auto.
    destruct H as [H1 H2]. split; auto. unfold any_outcome, declared.
    destruct (r_paths (a_ret a)) as [[|p ps]|].
    + destruct H2 as [(-> & -> & HF)|(-> & before & v & after & -> & HF & HV & HX)].
      * left; repeat split; auto. rewrite Forall_map_iff; auto.
      * right; split; auto. exists (map ctx before), (ctx v), (map ctx after).
        rewrite map_app. simpl. rewrite Forall_map_iff. repeat split; auto.
    + destruct H2 as (bs & HF & HB & x' & -> & HX). exists bs. repeat split; auto.
      * apply Forall2_map_l; auto.
      * rewrite HB. intros [?|?]; auto. discriminate.
      * rewrite HB. auto.
    + destruct H2 as [(-> & -> & HF)|(-> & before & v & after & -> & HF & HV & HX)].
      * left; repeat split; auto. rewrite Forall_map_iff; auto.
      * right; split; auto. exists (map ctx before), (ctx v), (map ctx after).
        rewrite map_app. simpl. rewrite Forall_map_iff. repeat split; auto.
  - apply all_loop_ok with (ctx := ctx) (same := same) (R := R) in H; auto.
    destruct H as (H1 & -> & H2). split; auto. split; auto.
    destruct H2 as [(-> & HF)|(-> & before & v & after & -> & HF & HV)].
    + left; split; auto. rewrite Forall_map_iff; auto.
    + right; split; auto. exists (map ctx before), (ctx v), (map ctx after).
      rewrite map_app. simpl. rewrite Forall_map_iff. auto.
Qed.

Lemma set_raw_relative_some v u s s' :
  set_raw_relative v s = (Some u, s') -> s' = mkEst (set_raw_rel (e_msg s) v) (e_tick s).
Proof. unfold set_raw_relative. intro H; minv. auto. Qed.
Lemma set_json_relative_some v u s s' :
  set_json_relative v s = (Some u, s') -> s' = mkEst (set_json_rel (e_msg s) v) (e_tick s).
Proof. unfold set_json_relative. intro H; minv. auto. Qed.

Definition quant_outcome (q : quant) (a : aanode L) (R : message -> bool -> extra -> Prop)
    (m : message) (b : bool) (x : extra) : Prop :=
  (exists ms, ev_contexts a m (Some ms) /\
    match q with
    | QAny => any_outcome L ev_record a R ms b x
    | QAll => all_outcome R ms b x
    end)
  \/ (ev_contexts a m None /\ b = false /\ x = []).

Lemma quant_iface_ok q a d p ps inner R :
  a_prep a = p :: ps -> describes inner R ->
  forall s b x s', m_raw (e_msg s) = Some d -> quant_iface L ord q a inner s = (Some (b, x), s') ->
  e_msg s' = e_msg s /\ quant_outcome q a R (e_msg s) b x.
Proof.
  intros Hp Hin s b x s' Hraw H. unfold quant_iface in H. minv.
  pose proof (elements_iface_msg _ _ _ _ H0) as E0.
  rename H1 into HQ0. rename H2 into HS0. apply set_raw_relative_some in HS0. subst s2. simpl. rename HQ0 into H.
  set (m := e_msg s) in *.
  apply quant_finish with (ctx := fun v => set_raw_rel m (Some v)) (R := R)
    (same := fun m' => exists v, m' = set_raw_rel m v) in H; auto.
  - destruct H as [[v HV] HQ]. split.
    + rewrite HV, E0. unfold m. rewrite set_raw_rel_twice. apply set_raw_rel_id.
    + left. eexists. split; [|exact HQ]. unfold ev_contexts. fold m. rewrite Hraw, Hp.
      exists (e_tick s), a0, s0. split; auto. unfold m. rewrite <- est_eta. exact H0.
  - intros v s9 u s9' [w HW] HS. apply set_raw_relative_some in HS. subst s9'. simpl. rewrite HW. auto.
  - intros v. eauto.
  - intros s9 e s9' [w HW] HG. minv. split; auto. unfold ev_record. rewrite HW. simpl.
    rewrite Hraw, Hp. rewrite <- HW. auto.
  - exists (m_raw_rel m). rewrite E0. symmetry; apply set_raw_rel_id.
Qed.

Lemma quant_bytes_ok q a inner R :
  describes inner R ->
  forall s b x s', (m_raw (e_msg s) = None \/ a_prep a = []) -> quant_bytes L ord q a inner s = (Some (b, x), s') ->
  e_msg s' = e_msg s /\ quant_outcome q a R (e_msg s) b x.
Proof.
  intros Hin s b x s' Hraw H. unfold quant_bytes in H. minv.
  pose proof (elements_bytes_msg _ _ _ _ H0) as E0.
  assert (HC : forall r, r = option_map (map (fun v => set_json_rel (e_msg s) (Some v))) a0 -> ev_contexts a (e_msg s) r).
  { intros r ->. unfold ev_contexts.
    destruct (m_raw (e_msg s)), (a_prep a); destruct Hraw as [Hraw|Hraw]; try discriminate;
    exists (e_tick s), a0, s0; split; auto; rewrite <- est_eta; exact H0. }
  destruct a0 as [vals|].
  - minv. rename H1 into HQ0. rename H2 into HS0. apply set_json_relative_some in HS0. subst s2. simpl. rename HQ0 into H.
    set (m := e_msg s) in *.
    apply quant_finish with (ctx := fun v => set_json_rel m (Some v)) (R := R)
      (same := fun m' => exists v, m' = set_json_rel m v) in H; auto.
    + destruct H as [[v HV] HQ]. split.
      * rewrite HV, E0. unfold m. rewrite set_json_rel_twice. apply set_json_rel_id.
      * left. eexists. split; [|exact HQ]. apply HC. auto.
    + intros v s9 u s9' [w HW] HS. apply set_json_relative_some in HS. subst s9'. simpl. rewrite HW. auto.
    + intros v. eauto.
    + intros s9 e s9' [w HW] HG. minv. split; auto. unfold ev_record. rewrite HW. simpl.
      rewrite <- HW. destruct (m_raw m), (a_prep a); destruct Hraw as [Hraw|Hraw]; try discriminate; auto.
    + exists (m_json_rel m). rewrite E0. symmetry; apply set_json_rel_id.
  - minv. split; auto. right. split; auto.
Qed.

(** The evaluator follows the declarative description and restores the message. *)
Lemma eval_describes n : describes (eval L ord n) (tree_outcome L ev_leaf ev_contexts ev_record n).
Proof.
  induction n using node_ind'; intros s b x s' H0; simpl in H0.
  - assert (F2 : Forall2 describes (map (eval L ord) ns) (map (tree_outcome L ev_leaf ev_contexts ev_record) ns)).
    { clear H0. induction H; simpl; constructor; auto. }
    destruct (and_loop_ok (e_msg s) _ _ F2 _ _ _ _ _ eq_refl H0) as (E & ev & rest & rs & HM & HF & HB & HL).
    split; auto. simpl. exists ev, rest, rs. repeat split; auto.
    + rewrite <- HM, map_map. auto.
    + apply last_non_empty_cons_nil; auto.
  - assert (F2 : Forall2 describes (map (eval L ord) ns) (map (tree_outcome L ev_leaf ev_contexts ev_record) ns)).
    { clear H0. induction H; simpl; constructor; auto. }
    destruct (or_loop_ok (e_msg s) _ _ F2 _ _ _ _ _ _ eq_refl H0) as (E & rs & HF & HB & HX).
    split; auto. simpl. exists rs. repeat split; auto.
    + rewrite map_map in HF. auto.
    + rewrite HB. intros [?|?]; auto. discriminate.
    + rewrite HB. auto.
  - minv. destruct a as [f y]. minv. destruct (IHn _ _ _ _ H) as [E HR]. split; auto. simpl.
    rewrite negb_involutive. eauto.
  - minv. simpl.
    destruct (m_raw (e_msg s)) as [d|] eqn:ER.
    + destruct (a_prep a) as [|p ps] eqn:EP.
      * eapply quant_bytes_ok in H0; eauto.
      * eapply quant_iface_ok in H0; eauto.
    + eapply quant_bytes_ok in H0; eauto.
  - minv. simpl. auto.
  - minv. simpl; auto.
  - split; [eapply test_condition_msg; eauto|]. simpl. exists (e_tick s), s'. rewrite <- est_eta. auto.
  - minv.
Qed.

Theorem eval_restores n s r s' : eval L ord n s = (Some r, s') -> e_msg s' = e_msg s.
Proof. destruct r. intro H. eapply eval_describes in H. tauto. Qed.

End Proofs.
