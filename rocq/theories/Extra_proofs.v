(** Extra data of a single condition and the content of a record. *)
From Coq Require Import List String Ascii Bool Arith ZArith.
From Verif Require Import Base GoStr GoFloat Types Json StrUtils Validate Eval Spec_Tree Spec_Extra Tree_truth.
Import ListNotations.
Open Scope string_scope.

Section WithLib.
Variable L : Lib.

(** A condition returns one record when it is true, reads the document and declares return
    values; otherwise it returns none. *)
Theorem leaf_extra c m b x : leaf_outcome L c m b x ->
  (c_attr c = "jsonpath" /\ b = true /\ r_paths (c_ret c) <> None /\
     exists e, get_extra L c m = Some e /\ x = [e])
  \/ ((c_attr c <> "jsonpath" \/ b = false \/ r_paths (c_ret c) = None) /\ x = []).
Proof.
  intros (ord & t & s' & _ & H). unfold test_condition in H. unfold mbind at 1 in H. cbn [mmsg e_msg] in H.
  destruct (String.eqb_spec (c_attr c) "jsonpath") as [E|E].
  - rewrite E in H. cbn [is_any existsb String.eqb Ascii.eqb Bool.eqb orb] in H.
    unfold mbind at 1 in H.
    match type of H with (let (_, _) := ?e in _) = _ => destruct e as [[flag|] s1] end; [|discriminate].
    destruct (r_paths (c_ret c)) as [l|] eqn:EP.
    + destruct flag.
      * unfold mbind, mopt in H. destruct (get_extra L c m) as [e|] eqn:EG; [|discriminate].
        injection H; intros; subst. left. repeat split; auto; [congruence|]. eauto.
      * injection H; intros; subst. right; auto.
    + injection H; intros; subst. right; auto.
  - right. split; [auto|].
    repeat match type of H with
    | (if ?b then _ else _) _ = _ => destruct b
    | (match m_enc_version m with _ => _ end) _ = _ => destruct (m_enc_version m)
    end;
    try (apply String.eqb_neq in E);
    unfold mret, mpanic, mbind, mopt in H;
    repeat match type of H with
    | (match ?o with _ => _ end) = _ => destruct o; try discriminate
    | (let (_, _) := ?o in _) = _ => destruct o; try discriminate
    end;
    try (injection H; intros; subst; reflexivity); try discriminate.
Qed.

Lemma collect_in {A B} (f : A -> option (option B)) l r : collect f l = Some r ->
  forall y, In y r <-> exists x, In x l /\ f x = Some (Some y).
Proof.
  revert r; induction l as [|a l IH]; simpl; intros r H y.
  - injection H; intros; subst. simpl. split; [tauto|intros (x & [] & _)].
  - destruct (f a) as [o|] eqn:EF; [|discriminate]. destruct (collect f l) as [ys|]; [|discriminate].
    specialize (IH _ eq_refl). destruct o as [b|]; injection H; intros; subst.
    + simpl. rewrite IH. split.
      * intros [->|(x & Hx & E)]; eauto.
      * intros (x & [->|Hx] & E); [left; congruence|right; eauto].
    + rewrite IH. split.
      * intros (x & Hx & E); eauto.
      * intros (x & [->|Hx] & E); [congruence|eauto].
Qed.

(** the error of a jsonpath query that only says that a key is absent *)
Definition absent_key (err : string) : Prop := contains err "not found in JSON object at" = true.

(** Content of a record computed from a parsed document: for every declared name the value of its
    path in the document (or the current element for a relative path); the whole document for
    the path [$*]; null for a path that is not a valid query; names whose query fails
    (otherwise than by an absent key) are left out. *)
Definition record_entry (r : retpart L) (m : message) (k : string) (v : iface) : Prop :=
  exists q doc, In (k, q) (r_prep r) /\
    (assoc k (r_rel r) = Some true -> m_raw_rel m = doc) /\
    (assoc k (r_rel r) <> Some true -> m_raw m = doc) /\
    let path := match r_paths r with Some l => assoc k l | None => None end in
    ((path = Some "$*" /\ doc = Some v)
     \/ (path <> Some "$*" /\ q = None /\ v = GNil)
     \/ (path <> Some "$*" /\ exists f d err, q = Some f /\ doc = Some d /\ jp_query L f d = (v, err) /\
           match err with None => True | Some e => absent_key e end)).

Theorem record_content r m e : extra_iface L r m = Some e ->
  forall k v, In (k, v) e <-> record_entry r m k v.
Proof.
  intros H k v. unfold extra_iface in H. rewrite (collect_in _ _ _ H). unfold record_entry.
  assert (P : forall k', (get_str k' (match r_paths r with Some p => p | None => [] end) =? "$*") = true <->
     match r_paths r with Some l => assoc k' l | None => None end = Some "$*").
  { intro k'. unfold get_str. destruct (r_paths r) as [l|]; simpl; [|split; discriminate].
    destruct (assoc k' l) as [p|]; [|split; discriminate]. rewrite String.eqb_eq. split; congruence. }
  assert (F : forall k', get_flag k' (r_rel r) = true <-> assoc k' (r_rel r) = Some true).
  { intro k'. unfold get_flag. destruct (assoc k' (r_rel r)) as [[]|]; split; congruence. }
  unfold extra_iface_one. split.
  - intros ((k', q) & HI & E). simpl in E. 
    exists q, (if get_flag k' (r_rel r) then m_raw_rel m else m_raw m).
    assert (k' = k).
    { destruct (get_str k' _ =? "$*"); [destruct (if get_flag k' (r_rel r) then _ else _); congruence|].
      destruct q as [f|]; [|congruence]. destruct (if get_flag k' (r_rel r) then _ else _); [|discriminate].
      destruct (query_interface L f i) as [v' []]; congruence. }
    subst k'. split; [exact HI|]. split; [intro A; apply F in A; rewrite A; reflexivity|].
    split. { intro A. destruct (get_flag k (r_rel r)) eqn:G; auto. apply F in G. contradiction. }
    cbn zeta. destruct (get_str k _ =? "$*") eqn:G.
    + left. split; [apply P; exact G|]. destruct (if get_flag k (r_rel r) then _ else _); congruence.
    + right. assert (N : (match r_paths r with Some l => assoc k l | None => None end) <> Some "$*").
      { intro A. apply P in A. congruence. }
      destruct q as [f|]; [|left; repeat split; auto; congruence]. right. split; [exact N|].
      destruct (if get_flag k (r_rel r) then _ else _) as [d|]; [|discriminate].
      unfold query_interface in E. destruct (jp_query L f d) as [v' err] eqn:EQ.
      exists f, d, err. destruct err as [er|].
      * destruct (negb (contains er _)) eqn:EC; [discriminate|]. apply negb_false_iff in EC.
        assert (v' = v) by congruence. subst. auto.
      * assert (v' = v) by congruence. subst. auto.
  - intros (q & doc & HI & HR & HN & HC). cbn zeta in HC.
    exists (k, q). split; [exact HI|]. simpl.
    assert (D : (if get_flag k (r_rel r) then m_raw_rel m else m_raw m) = doc).
    { destruct (get_flag k (r_rel r)) eqn:G; [apply HR; apply F; exact G|]. apply HN. intro A. apply F in A. congruence. }
    rewrite D. destruct HC as [(HP & ->)|[(HP & -> & ->)|(HP & f & d & err & -> & -> & EQ & HE)]].
    + apply P in HP. rewrite HP. reflexivity.
    + destruct (get_str k _ =? "$*") eqn:G; [apply P in G; contradiction|]. reflexivity.
    + destruct (get_str k _ =? "$*") eqn:G; [apply P in G; contradiction|].
      unfold query_interface. rewrite EQ. destruct err as [er|]; [|reflexivity]. unfold absent_key in HE. rewrite HE. reflexivity.
Qed.

End WithLib.
