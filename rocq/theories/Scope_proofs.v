(** Evaluation of a closed tree does not depend on the relative context. *)
From Coq Require Import List String Ascii Bool Arith ZArith Permutation Lia.
From Verif Require Import Base GoStr GoStr_facts GoFloat Types Json StrUtils Validate Prepare Eval
  Spec_Tree Spec_Extra Spec_Scope Tree_proofs Tree_truth.
Import ListNotations.
Open Scope string_scope.

Section WithLib.
Variable L : Lib.
Variable ord : order.
Notation node := (node L).

(** the part of the relative context that matters is the same *)
Definition agree (bound : bool) (m m' : message) : Prop :=
  same_but_relative m m' /\
  (bound = true -> match m_raw m with Some _ => m_raw_rel m = m_raw_rel m' | None => m_json_rel m = m_json_rel m' end).

Definition same_result {A} (x x' : option A * est) : Prop :=
  fst x = fst x' /\ e_tick (snd x) = e_tick (snd x').
Definition same_run {A} (x : M A) (m m' : message) : Prop :=
  forall t, same_result (x (mkEst m t)) (x (mkEst m' t)).

(** a computation that leaves the message alone when it returns *)
Definition keeps {A} (x : M A) : Prop := forall s r s', x s = (Some r, s') -> e_msg s' = e_msg s.

Lemma agree_fields b m m' : agree b m m' -> m_raw m = m_raw m' /\ m_json m = m_json m'.
Proof. intros [H _]. split; [exact (f_equal m_raw H)|exact (f_equal m_json H)]. Qed.

Lemma same_bind {A B} (x : M A) (f : A -> M B) m m' : keeps x -> same_run x m m' ->
  (forall a, same_run (f a) m m') -> same_run (mbind x f) m m'.
Proof.
  intros HK HX HF t. unfold mbind. specialize (HX t). unfold same_result in HX.
  destruct (x (mkEst m t)) as [[a|] s1] eqn:E1, (x (mkEst m' t)) as [[a'|] s1'] eqn:E2; simpl in HX;
    destruct HX as [E0 ET]; try discriminate.
  - injection E0; intros; subst. apply HK in E1. apply HK in E2. destruct s1 as [ms ts], s1' as [ms' ts']; simpl in *; subst.
    apply HF.
  - split; auto.
Qed.

Lemma same_bind2 {A B} (x x' : M A) (f f' : A -> M B) m m' t : keeps x -> keeps x' ->
  same_result (x (mkEst m t)) (x' (mkEst m' t)) ->
  (forall a t, same_result (f a (mkEst m t)) (f' a (mkEst m' t))) ->
  same_result (mbind x f (mkEst m t)) (mbind x' f' (mkEst m' t)).
Proof.
  intros HK HK' HX HF. unfold mbind. unfold same_result in HX.
  destruct (x (mkEst m t)) as [[a|] s1] eqn:E1, (x' (mkEst m' t)) as [[a'|] s1'] eqn:E2; simpl in HX;
    destruct HX as [E0 ET]; try discriminate.
  - injection E0; intros; subst. apply HK in E1. apply HK' in E2. destruct s1 as [ms ts], s1' as [ms' ts']; simpl in *; subst.
    apply HF.
  - split; auto.
Qed.

Lemma bind_any {A B} (x x' : M A) (f f' : A -> M B) s s' : same_result (x s) (x' s') ->
  (forall a s s', e_tick s = e_tick s' -> same_result (f a s) (f' a s')) ->
  same_result (mbind x f s) (mbind x' f' s').
Proof.
  intros HX HF. unfold mbind. unfold same_result in HX. destruct (x s) as [[a|] s1], (x' s') as [[a'|] s1']; simpl in HX;
    destruct HX as [E0 ET]; try discriminate; [|split; auto]. injection E0; intros; subst. apply HF; auto.
Qed.

Lemma keeps_eval n : keeps (eval L ord n).
Proof. intros s r s' H. eapply eval_restores; eauto. Qed.

Lemma same_ret {A} (a : A) m m' : same_run (mret a) m m'.
Proof. intro t; split; auto. Qed.
Lemma same_opt {A} (a : option A) m m' : same_run (mopt a) m m'.
Proof. intro t; split; auto. Qed.
Lemma same_panic {A} m m' : same_run (@mpanic A) m m'.
Proof. intro t; split; auto. Qed.
Lemma keeps_ret {A} (a : A) : keeps (mret a).
Proof. intros s r s' H. minv; auto. Qed.
Lemma keeps_opt {A} (a : option A) : keeps (mopt a).
Proof. intros s r s' H. minv; auto. Qed.
Lemma same_range {A} (x : list (string * A)) m m' : same_run (mrange ord x) m m'.
Proof. intro t; split; auto. Qed.
Lemma keeps_range {A} (x : list (string * A)) : keeps (mrange ord x).
Proof. intros s r s' H. minv; auto. Qed.
Hint Resolve same_ret same_opt same_panic keeps_ret keeps_opt same_range keeps_range : run.

Lemma mbind_mmsg {B} (f : message -> M B) s : mbind mmsg f s = f (e_msg s) s.
Proof. reflexivity. Qed.

(** ** Conditions *)
Definition cond_closed (bound : bool) (c : cond L) : Prop :=
  bound = true \/ (j_rel (c_jp c) = false /\ forall k, assoc k (r_rel (c_ret c)) <> Some true).

Lemma get_flag_false k l : (forall k, assoc k l <> Some true) -> get_flag k l = false.
Proof. intro H. unfold get_flag. specialize (H k). destruct (assoc k l) as [[]|]; congruence. Qed.

Lemma collect_ext {A B} (f g : A -> option (option B)) l : (forall x, f x = g x) -> collect f l = collect g l.
Proof. intro H. induction l; simpl; auto. rewrite H, IHl. auto. Qed.

Lemma get_extra_same b c m m' : agree b m m' -> cond_closed b c -> get_extra L c m = get_extra L c m'.
Proof.
  intros HA HC. destruct (agree_fields _ _ _ HA) as [ER EJ]. destruct HA as [_ HA]. unfold get_extra. rewrite <- ER.
  destruct (m_raw m) eqn:E.
  - apply collect_ext. intro e. unfold extra_iface_one. destruct HC as [->|[_ HC]].
    + rewrite HA by auto. rewrite <- ER, E. auto.
    + rewrite get_flag_false by auto. rewrite <- ER, E. auto.
  - apply collect_ext. intro e. unfold extra_bytes_one. destruct HC as [->|[_ HC]].
    + rewrite HA by auto. rewrite <- EJ. auto.
    + rewrite get_flag_false by auto. rewrite <- EJ. auto.
Qed.

Lemma keeps_kv c q v : keeps (get_key_value_iface L ord c q v).
Proof.
  intros s r s' H. unfold get_key_value_iface in H. destruct v; minv. destruct (ord _ _); minv; auto.
  destruct (String.eqb _ _); minv; auto. destruct (assoc _ _); minv. destruct (String.eqb _ _); minv; auto.
Qed.
Lemma same_kv c q v m m' : same_run (get_key_value_iface L ord c q v) m m'.
Proof.
  unfold get_key_value_iface. destruct v; auto with run. apply same_bind; auto with run.
  intro ks. destruct ks; auto with run. destruct (String.eqb _ _); auto with run.
  destruct (assoc _ _); auto with run. destruct (String.eqb _ _); auto with run.
Qed.

Lemma test_json_iface_same b c q m m' : agree b m m' -> cond_closed b c -> m_raw m <> None ->
  forall t, same_result (test_json_iface L ord c q m (mkEst m t)) (test_json_iface L ord c q m' (mkEst m' t)).
Proof.
  intros HA HC HR t. destruct (agree_fields _ _ _ HA) as [ER EJ]. destruct HA as [_ HA].
  unfold test_json_iface. destruct (negb (j_is (c_jp c))); [split; auto|].
  destruct (j_rel (c_jp c)) eqn:EJR.
  - destruct HC as [->|[HC _]]; [|congruence]. specialize (HA eq_refl). destruct (m_raw m) as [d|]; [|congruence].
    rewrite <- HA. destruct (m_raw_rel m) as [v|]; [|split; auto].
    destruct (String.eqb _ _ || has_prefix _ _)%bool.
    + apply same_bind; auto using keeps_kv, same_kv. intro r. destruct (snd r); auto with run.
    + destruct (snd _); split; auto.
  - rewrite <- ER. destruct (m_raw m); [|split; auto]. destruct (snd _); split; auto.
Qed.

Lemma test_json_bytes_same b c m m' : agree b m m' -> cond_closed b c -> m_raw m = None ->
  test_json_bytes L c m = test_json_bytes L c m'.
Proof.
  intros HA HC HR. destruct (agree_fields _ _ _ HA) as [ER EJ]. destruct HA as [_ HA].
  unfold test_json_bytes. rewrite <- EJ. destruct HC as [->|[-> _]]; auto.
  rewrite HR in HA. rewrite HA by auto. auto.
Qed.

Lemma keeps_test_json c q m : keeps (test_json_iface L ord c q m).
Proof.
  intros s r s' H. unfold test_json_iface in H. destruct (negb _); minv; auto.
  destruct (j_rel _).
  - destruct (m_raw_rel m); minv; auto. destruct (_ || _)%bool.
    + minv. apply keeps_kv in H0. destruct (snd a); minv; auto.
    + destruct (snd _); minv; auto.
  - destruct (m_raw m); minv; auto. destruct (snd _); minv; auto.
Qed.

Lemma test_condition_same b c m m' : agree b m m' -> cond_closed b c ->
  (m_raw m = None \/ (c_attr c = "jsonpath" -> j_prep (c_jp c) <> None)) ->
  same_run (test_condition L ord c) m m'.
Proof.
  intros HA HC HP t. pose proof (agree_fields _ _ _ HA) as [ER EJ]. pose proof (proj1 HA) as HS.
  unfold test_condition. rewrite !mbind_mmsg. cbn [e_msg].
  replace (m_size m') with (m_size m) by exact (f_equal m_size HS).
  replace (m_useragent m') with (m_useragent m) by exact (f_equal m_useragent HS).
  replace (m_t_hours m') with (m_t_hours m) by exact (f_equal m_t_hours HS).
  replace (m_enc_type m') with (m_enc_type m) by exact (f_equal m_enc_type HS).
  replace (m_enc_version m') with (m_enc_version m) by exact (f_equal m_enc_version HS).
  replace (m_domain m') with (m_domain m) by exact (f_equal m_domain HS).
  replace (test_sender_attr L c m') with (test_sender_attr L c m) by exact (f_equal (test_sender_attr L c) HS).
  replace (test_receiver_attr L c m') with (test_receiver_attr L c m) by exact (f_equal (test_receiver_attr L c) HS).
  replace (test_sender_label L c m') with (test_sender_label L c m) by exact (f_equal (test_sender_label L c) HS).
  replace (test_receiver_label L c m') with (test_receiver_label L c m) by exact (f_equal (test_receiver_label L c) HS).
  repeat match goal with
  | |- same_result ((if ?b then _ else _) _) _ => destruct b eqn:?; [first [solve [split; reflexivity]|idtac]|]
  end; try solve [split; reflexivity];
  try solve [apply (same_bind (mopt _) (fun x => mret (x, [])) m m'); auto with run].
  - destruct (m_enc_version m); [|split; reflexivity].
    apply (same_bind (mopt _) (fun x => mret (x, [])) m m'); auto with run.
  - assert (EA : c_attr c = "jsonpath") by (apply String.eqb_eq; auto).
    assert (HF : same_result ((match m_raw m, j_prep (c_jp c) with
                 | Some _, Some q => test_json_iface L ord c q m
                 | _, _ => mopt (test_json_bytes L c m) end) (mkEst m t))
               ((match m_raw m', j_prep (c_jp c) with
                 | Some _, Some q => test_json_iface L ord c q m'
                 | _, _ => mopt (test_json_bytes L c m') end) (mkEst m' t))).
    { rewrite <- ER. destruct (m_raw m) eqn:EM.
      - destruct HP as [HP|HP]; [discriminate|]. specialize (HP EA). destruct (j_prep (c_jp c)) as [q|]; [|congruence].
        apply (test_json_iface_same b); auto. congruence.
      - rewrite (test_json_bytes_same b c m m') by auto. split; auto. }
    assert (HK1 : keeps (match m_raw m, j_prep (c_jp c) with
                 | Some _, Some q => test_json_iface L ord c q m
                 | _, _ => mopt (test_json_bytes L c m) end))
      by (destruct (m_raw m); [destruct (j_prep (c_jp c))|]; auto using keeps_test_json with run).
    assert (HK2 : keeps (match m_raw m', j_prep (c_jp c) with
                 | Some _, Some q => test_json_iface L ord c q m'
                 | _, _ => mopt (test_json_bytes L c m') end))
      by (destruct (m_raw m'); [destruct (j_prep (c_jp c))|]; auto using keeps_test_json with run).
    eapply same_bind2; [exact HK1|exact HK2|exact HF|]. intros f t1.
    destruct (r_paths (c_ret c)); [|split; auto]. destruct f; [|split; auto].
    rewrite (get_extra_same b c m m') by auto. cbn. unfold mbind, mopt. destruct (get_extra L c m'); split; auto.
Qed.

(** ** Elements *)
Lemma keeps_arrange v : keeps (arrange ord v).
Proof. intros s r s' H. unfold arrange in H. destruct v; minv; auto. Qed.
Lemma same_arrange v m m' : same_run (arrange ord v) m m'.
Proof. unfold arrange. destruct v; auto with run. apply same_bind; auto with run. Qed.
Lemma keeps_query_all qs d : keeps (query_all L ord qs d).
Proof.
  induction qs as [|q qs IH]; simpl; auto with run. intros s r s' H.
  destruct q, d; minv. apply keeps_arrange in H0. apply IH in H1. congruence.
Qed.
Lemma same_query_all qs d m m' : same_run (query_all L ord qs d) m m'.
Proof.
  induction qs as [|q qs IH]; simpl; auto with run. destruct q; auto with run. destruct d; auto with run.
  apply same_bind; auto using keeps_arrange, same_arrange. intro x.
  apply same_bind; auto using keeps_query_all with run.
Qed.

Definition parents_closed (bound : bool) (a : aanode L) : Prop :=
  bound = true \/ (~ refers_to_element (a_parent a) /\ Forall (fun p => ~ refers_to_element p) (a_parents a)).

Lemma elements_iface_same b a m m' : agree b m m' -> m_raw m <> None -> parents_closed b a ->
  same_run (elements_iface L ord a) m m'.
Proof.
  intros HA HR HC t. destruct (agree_fields _ _ _ HA) as [ER EJ]. destruct HA as [_ HA].
  unfold elements_iface. rewrite !mbind_mmsg. cbn [e_msg]. rewrite <- ER.
  destruct (relative_parent (a_parent a)) eqn:EP; [|apply same_query_all].
  destruct HC as [->|[HC _]]; [|apply relative_parent_spec in EP; contradiction].
  specialize (HA eq_refl). destruct (m_raw m) as [d|]; [|congruence]. rewrite <- HA.
  destruct (String.eqb _ _); [|apply same_query_all].
  destruct (m_raw_rel m) as [[]|]; try apply same_panic. apply same_bind; auto with run.
Qed.

Lemma gather_same b ps m m' : agree b m m' -> m_raw m = None ->
  (b = true \/ Forall (fun p => ~ refers_to_element p) ps) ->
  forall acc f, gather L ps m acc f = gather L ps m' acc f.
Proof.
  intros HA HR HC. destruct (agree_fields _ _ _ HA) as [ER EJ]. destruct HA as [_ HA]. rewrite HR in HA.
  induction ps as [|p ps IH]; simpl; intros acc f; auto. rewrite <- EJ.
  destruct HC as [->|HC].
  - rewrite HA by auto. destruct (relative_parent p); destruct (m_json_rel m'), (m_json m); auto;
    destruct (js_get_opt L _ _); apply IH; auto.
  - inversion HC as [|? ? H1 H2]; subst. destruct (relative_parent p) eqn:EP; [apply relative_parent_spec in EP; contradiction|].
    destruct (m_json m); auto. destruct (js_get_opt L _ _); apply IH; auto.
Qed.

Lemma elements_bytes_same b a m m' : agree b m m' -> m_raw m = None -> parents_closed b a ->
  same_run (elements_bytes L ord a) m m'.
Proof.
  intros HA HR HC t. unfold elements_bytes. rewrite !mbind_mmsg. cbn [e_msg].
  rewrite (gather_same b _ m m') by (auto; destruct HC as [->|[_ HC]]; auto).
  apply same_bind; auto with run. intros [d f]. destruct f; auto with run.
  apply same_bind; auto with run. intros [d'|]; auto with run.
  destruct (split_objects d'); auto with run. unfold objects_of_map.
  destruct (json_parse_map L d'); auto with run. apply same_bind; auto with run.
Qed.

Lemma keeps_elements_iface a : keeps (elements_iface L ord a).
Proof.
  intros s r s' H. unfold elements_iface in H. minv. destruct (relative_parent _); [destruct (String.eqb _ _)|].
  - destruct (m_raw_rel _) as [[]|]; minv; auto.
  - apply keeps_query_all in H; auto.
  - apply keeps_query_all in H; auto.
Qed.
Lemma keeps_elements_bytes a : keeps (elements_bytes L ord a).
Proof.
  intros s r s' H. unfold elements_bytes in H. minv. destruct a0 as [d f]. destruct f; minv; auto.
  destruct a0; minv; auto. destruct (split_objects s0); minv; auto. unfold objects_of_map in H.
  destruct (json_parse_map L s0); minv; auto.
Qed.

(** ** Loops *)
Section Loop.
Variable V : Type.
Variable set : V -> M unit.
Variable put : message -> V -> message.
Hypothesis Hset : forall v m t, set v (mkEst m t) = (Some tt, mkEst (put m v) t).
Variable inner : M (bool * extra).
Hypothesis Hkeep : keeps inner.
(** [ok]: the messages the inner node is evaluated on *)
Variable ok : message -> Prop.
Hypothesis Hok : forall m v, ok m -> ok (put m v).
Hypothesis Hput : forall m m' v, ok m -> agree false m m' -> agree true (put m v) (put m' v).
Hypothesis Hinner : forall m m', ok m -> agree true m m' -> same_run inner m m'.

Lemma agree_forget b m m' : agree b m m' -> agree false m m'.
Proof. intros [H _]. split; auto. discriminate. Qed.

Lemma all_loop_same vals : forall m m', ok m -> agree false m m' -> same_run (all_loop set inner vals) m m'.
Proof.
  induction vals as [|v vals IH]; simpl; intros m m' HO HA t; [split; auto|].
  unfold mbind at 1 3. rewrite !Hset. apply (same_bind inner (fun x => let (flag, _) := x in
    if flag then all_loop set inner vals else mret (false, [])) (put m v) (put m' v)); [exact Hkeep|apply Hinner; auto|].
  intros [[] x]; [|apply same_ret]. apply IH; auto. eapply agree_forget, Hput; auto.
Qed.

Variable getx : option (M (list (string * iface))).
Hypothesis Hgetx : forall g, getx = Some g -> keeps g /\ forall m m', ok m -> agree true m m' -> same_run g m m'.

Lemma any_loop_same all_values vals : forall m m' result acc, ok m -> agree false m m' ->
  same_run (any_loop set getx all_values inner vals result acc) m m'.
Proof.
  induction vals as [|v vals IH]; intros m m' result acc HO HA t; [split; auto|].
  cbn [any_loop]. unfold mbind at 1 5. rewrite !Hset.
  apply (same_bind inner (fun x => let (flag, _) := x in
    if flag then
      mdo acc <- (match getx with
                  | Some g => mdo x <- g; mret (acc ++ [x])%list
                  | None => mret acc
                  end);
      if all_values then any_loop set getx all_values inner vals true acc
      else mret (true, acc)
    else any_loop set getx all_values inner vals result acc) (put m v) (put m' v)); [exact Hkeep|apply Hinner; auto|].
  assert (HA' : agree false (put m v) (put m' v)) by (eapply agree_forget, Hput; auto).
    intros [[] x]; [|apply IH; auto].
    apply same_bind.
    + destruct getx as [g|]; auto with run. intros s r s' H. destruct (Hgetx g eq_refl) as [HG _]. minv. apply HG in H0. auto.
    + destruct getx as [g|]; auto with run. destruct (Hgetx g eq_refl) as [HG HG']. apply same_bind; auto with run.
    + intro acc'. destruct all_values; auto with run.
Qed.
End Loop.

(** ** Trees *)
Definition suits (n : node) (m : message) : Prop := m_raw m = None \/ fully_prepared L n.

Lemma quant_same b q a n m m' : (forall m m', suits n m -> agree true m m' -> same_run (eval L ord n) m m') ->
  agree b m m' -> parents_closed b a -> suits (NQuant q a n) m -> same_run (eval L ord (NQuant q a n)) m m'.
Proof.
  intros HI HA HC HS t. cbn [eval]. rewrite !mbind_mmsg. cbn [e_msg]. destruct (agree_fields _ _ _ HA) as [ER EJ].
  rewrite <- ER. assert (HN : suits n m) by (destruct HS as [HS|[_ HS]]; [left|right]; auto).
  destruct (m_raw m) as [d|] eqn:EM.
  - destruct HS as [HS|HS]; [congruence|]. destruct HS as [HS1 HS2]. destruct (a_prep a) as [|x l] eqn:EA; [congruence|].
    unfold quant_iface. apply same_bind; auto using keeps_elements_iface.
    { eapply elements_iface_same; eauto. congruence. }
    intros vals t1. rewrite !mbind_mmsg. cbn [e_msg].
    assert (HL : same_run (quant_loop L q a (fun v => set_raw_relative (Some v))
             (mdo m <- mmsg; mopt (extra_iface L (a_ret a) m)) (eval L ord n) vals) m m').
    { set (ok := fun m0 : message => m_raw m0 = Some d).
      assert (HP : forall (m1 m2 : message) (v : iface), ok m1 -> agree false m1 m2 ->
        agree true (set_raw_rel m1 (Some v)) (set_raw_rel m2 (Some v))).
      { intros m1 m2 v HO [H1 _]. split; [exact H1|]. intros _. cbn. rewrite HO. auto. }
      assert (HIn : forall m1 m2, ok m1 -> agree true m1 m2 -> same_run (eval L ord n) m1 m2)
        by (intros; apply HI; auto; right; auto).
      unfold quant_loop. destruct q.
      - apply any_loop_same with (put := fun m v => set_raw_rel m (Some v)) (ok := ok); auto using keeps_eval.
        + intros g Hg. destruct (r_paths (a_ret a)); [|discriminate]. injection Hg; intros; subst. split.
          * intros s r s' H. minv; auto.
          * intros m1 m2 HO1 HA1 t2. rewrite !mbind_mmsg. cbn [e_msg].
            replace (extra_iface L (a_ret a) m2) with (extra_iface L (a_ret a) m1); [split; auto|].
            destruct (agree_fields _ _ _ HA1) as [ER1 _]. destruct HA1 as [_ HA1]. specialize (HA1 eq_refl).
            rewrite HO1 in HA1. unfold extra_iface. apply collect_ext. intro e. unfold extra_iface_one.
            rewrite HA1, ER1. auto.
        + eapply agree_forget; eauto.
      - apply all_loop_same with (put := fun m v => set_raw_rel m (Some v)) (ok := ok); auto using keeps_eval.
        eapply agree_forget; eauto. }
    eapply bind_any; [exact (HL t1)|]. intros r s1 s2 E. split; auto.
  - assert (EB : forall X Y : M (bool * extra), match @None iface with Some _ => match a_prep a with [] => X | _ :: _ => Y end | None => X end = X) by auto.
    unfold quant_bytes. apply same_bind; auto using keeps_elements_bytes.
    { eapply elements_bytes_same; eauto. }
    intros [vals|]; [|apply same_ret]. intros t1. rewrite !mbind_mmsg. cbn [e_msg].
    assert (HL : same_run (quant_loop L q a (fun v => set_json_relative (Some v))
             (mdo m <- mmsg; mopt (extra_bytes L (a_ret a) m)) (eval L ord n) vals) m m').
    { set (ok := fun m0 : message => m_raw m0 = None).
      assert (HP : forall (m1 m2 : message) (v : string), ok m1 -> agree false m1 m2 ->
        agree true (set_json_rel m1 (Some v)) (set_json_rel m2 (Some v))).
      { intros m1 m2 v HO [H1 _]. split; [exact H1|]. intros _. cbn. rewrite HO. auto. }
      assert (HIn : forall m1 m2, ok m1 -> agree true m1 m2 -> same_run (eval L ord n) m1 m2)
        by (intros; apply HI; auto; left; auto).
      unfold quant_loop. destruct q.
      - apply any_loop_same with (put := fun m v => set_json_rel m (Some v)) (ok := ok); auto using keeps_eval.
        + intros g Hg. destruct (r_paths (a_ret a)); [|discriminate]. injection Hg; intros; subst. split.
          * intros s r s' H. minv; auto.
          * intros m1 m2 HO1 HA1 t2. rewrite !mbind_mmsg. cbn [e_msg].
            replace (extra_bytes L (a_ret a) m2) with (extra_bytes L (a_ret a) m1); [split; auto|].
            destruct (agree_fields _ _ _ HA1) as [ER1 EJ1]. destruct HA1 as [_ HA1]. specialize (HA1 eq_refl).
            rewrite HO1 in HA1. unfold extra_bytes. apply collect_ext. intro e. unfold extra_bytes_one.
            rewrite HA1, EJ1. auto.
        + eapply agree_forget; eauto.
      - apply all_loop_same with (put := fun m v => set_json_rel m (Some v)) (ok := ok); auto using keeps_eval.
        eapply agree_forget; eauto. }
    eapply bind_any; [exact (HL t1)|]. intros r s1 s2 E. split; auto.
Qed.

Lemma and_loop_same ns m m' : Forall (fun n => same_run (eval L ord n) m m') ns ->
  forall acc, same_run (and_loop (map (eval L ord) ns) acc) m m'.
Proof.
  induction 1 as [|n ns Hn HF IH]; intro acc; cbn [map and_loop]; auto with run.
  apply same_bind; auto using keeps_eval. intros [[] x]; auto with run.
Qed.
Lemma or_loop_same ns m m' : Forall (fun n => same_run (eval L ord n) m m') ns ->
  forall out acc, same_run (or_loop (map (eval L ord) ns) out acc) m m'.
Proof.
  induction 1 as [|n ns Hn HF IH]; intros out acc; cbn [map or_loop]; auto with run.
  apply same_bind; auto using keeps_eval. intros [[] x]; auto with run.
Qed.

Lemma children_same b ns m m' :
  Forall (fun n => forall b m m', agree b m m' -> closed L b n -> suits n m -> same_run (eval L ord n) m m') ns ->
  agree b m m' -> fold_right (fun n p => closed L b n /\ p) True ns ->
  (m_raw m = None \/ fold_right (fun n p => fully_prepared L n /\ p) True ns) ->
  Forall (fun n => same_run (eval L ord n) m m') ns.
Proof.
  intros HI HA HC HS. induction HI as [|n ns Hn HI IH]; constructor.
  - apply (Hn b); auto; [apply HC|]. destruct HS as [HS|[HS _]]; [left|right]; auto.
  - apply IH; [apply HC|]. destruct HS as [HS|[_ HS]]; auto.
Qed.

Lemma eval_same n : forall b m m', agree b m m' -> closed L b n -> suits n m -> same_run (eval L ord n) m m'.
Proof.
  induction n using node_ind'; intros b m m' HA HC HS.
  - cbn [eval]. apply and_loop_same. eapply children_same; eauto.
  - cbn [eval]. apply or_loop_same. eapply children_same; eauto.
  - cbn [eval]. apply same_bind; auto using keeps_eval.
    + apply (IHn b); auto.
    + intros [f x]; auto with run.
  - destruct HC as [HC1 HC2]. apply (quant_same b); auto. intros m1 m2 HS1 HA1. apply (IHn true); auto.
  - cbn [eval]; auto with run.
  - cbn [eval]; auto with run.
  - cbn [eval]. apply (test_condition_same b); auto.
  - cbn [eval]; auto with run.
Qed.

(** C13: the surrounding relative context is irrelevant for a closed tree *)
Theorem closed_independent n m r j t : closed L false n -> (m_raw m = None \/ fully_prepared L n) ->
  fst (eval L ord n (mkEst (set_raw_rel (set_json_rel m j) r) t)) = fst (eval L ord n (mkEst m t)).
Proof.
  intros HC HS. apply (eval_same n false); auto.
  split; [reflexivity|discriminate].
Qed.

End WithLib.

(** ** Preparation prepares every query *)
Section Prepared.
Variable L : Lib.

Lemma rbind_ok {A B} (x : res A) (f : A -> res B) b : rbind x f = Ok b -> exists a, x = Ok a /\ f a = Ok b.
Proof. destruct x; simpl; intro H; try discriminate. eauto. Qed.

Lemma rmap_ok {A B} (f : A -> B) (x : res A) b : rmap f x = Ok b -> exists a, x = Ok a /\ b = f a.
Proof. destruct x; simpl; intro H; try discriminate. injection H; intros; subst. eauto. Qed.

Lemma rseq_ok {A B} (f : A -> res B) l bs : rseq (map f l) = Ok bs -> Forall2 (fun a b => f a = Ok b) l bs.
Proof.
  revert bs; induction l as [|a l IH]; simpl; intros bs H.
  - injection H; intros; subst; constructor.
  - apply rbind_ok in H. destruct H as (b & Hb & H). apply rbind_ok in H. destruct H as (bs' & Hbs & H).
    injection H; intros; subst. constructor; auto.
Qed.

Lemma prepare_query_some q r : jp_prepare L "$.*" <> None -> prepare_query L q = Ok r -> r <> None.
Proof.
  intros HJ H. unfold prepare_query in H. destruct (_ || _)%bool; [congruence|].
  match type of H with context [jp_prepare L ?q] => destruct (jp_prepare L q) end; congruence.
Qed.

Lemma handle_labels_attr c c' : handle_labels L c = Ok c' -> c_jp c' = c_jp c /\ (c_attr c' = "jsonpath" -> c_attr c = "jsonpath").
Proof.
  unfold handle_labels. intro H.
  apply rbind_ok in H. destruct H as ((a1 & l1) & H1 & H). apply rbind_ok in H. destruct H as ((a2 & l2) & H2 & H).
  apply rbind_ok in H. destruct H as ((v & l3) & H3 & H). injection H; intros; subst. split; auto. simpl. intros ->.
  destruct (has_prefix (c_attr c) "senderLabel[").
  - apply rbind_ok in H1. destruct H1 as (k & _ & H1). injection H1; intros; subst.
    destruct (has_prefix "senderLabel" "receiverLabel["); [|congruence].
    apply rbind_ok in H2. destruct H2 as (k' & _ & H2). discriminate.
  - injection H1; intros; subst. destruct (has_prefix (c_attr c) "receiverLabel["); [|congruence].
    apply rbind_ok in H2. destruct H2 as (k' & _ & H2). discriminate.
Qed.

Lemma handle_objects_attr c c' : handle_objects L c = Ok c' -> c_jp c' = c_jp c /\ (c_attr c' = "jsonpath" -> c_attr c = "jsonpath").
Proof.
  unfold handle_objects. intro H.
  apply rbind_ok in H. destruct H as ((a1 & l1) & H1 & H). apply rbind_ok in H. destruct H as ((a2 & l2) & H2 & H).
  apply rbind_ok in H. destruct H as ((v & l3) & H3 & H). injection H; intros; subst. split; auto. simpl. intros ->.
  destruct (has_prefix (c_attr c) "$sender.").
  - apply rbind_ok in H1. destruct H1 as (k & _ & H1). injection H1; intros; subst.
    destruct (has_prefix "$sender" "$receiver."); [|congruence].
    apply rbind_ok in H2. destruct H2 as (k' & _ & H2). discriminate.
  - injection H1; intros; subst. destruct (has_prefix (c_attr c) "$receiver."); [|congruence].
    apply rbind_ok in H2. destruct H2 as (k' & _ & H2). discriminate.
Qed.

Lemma handle_jsonpath_attr c c' : handle_jsonpath L c = Ok c' -> c_attr c' = "jsonpath" ->
  j_is (c_jp c') = true \/ c_attr c = "jsonpath".
Proof.
  unfold handle_jsonpath. destruct (has_prefix (c_attr c) "jsonpath:"); intros H HA.
  - apply rbind_ok in H. destruct H as (net & _ & H). destruct (if slice_has_prefix _ _ then _ else _) as [n1 rel].
    apply rbind_ok in H. destruct H as (n2 & _ & H). injection H; intros; subst. auto.
  - injection H; intros; subst. auto.
Qed.

Lemma not_plain_jsonpath att method value u : validate_attribute att method value = Ok u -> att <> "jsonpath".
Proof. intros H ->. discriminate. Qed.

Lemma prepared_condition_ready p c c' : jp_prepare L "$.*" <> None -> prepare_condition L p c = Ok c' ->
  c_attr c' = "jsonpath" -> j_prep (c_jp c') <> None.
Proof.
  intros HJ H HA. unfold prepare_condition in H.
  apply rbind_ok in H. destruct H as (c1 & H1 & H). apply rbind_ok in H. destruct H as (c2 & H2 & H).
  apply rbind_ok in H. destruct H as (c3 & H3 & H).
  destruct (j_is (c_jp c3)) eqn:EJ.
  - apply rbind_ok in H. destruct H as (q & Hq & H). injection H; intros; subst. simpl.
    eapply prepare_query_some; eauto.
  - injection H; intros; subst. exfalso.
    assert (N2 : c_attr c2 <> "jsonpath").
    { unfold validate_condition in H2. apply rbind_ok in H2. destruct H2 as (u & Hu & H2).
      apply rbind_ok in H2. destruct H2 as (u2 & Hu2 & H2). unfold validate_numerical in H2.
      destruct (_ && _)%bool; [discriminate|]. destruct (_ && _)%bool; [discriminate|].
      injection H2; intros; subst. simpl. eapply not_plain_jsonpath; eauto. }
    unfold convert_condition in H3. destruct (if is_any (c_method c2) _ then _ else _) as [me va].
    destruct (_ && _)%bool; [discriminate|].
    apply rbind_ok in H3. destruct H3 as (d1 & HD1 & H3). apply rbind_ok in H3. destruct H3 as (d2 & HD2 & H3).
    apply rbind_ok in H3. destruct H3 as (d3 & HD3 & H3).
    assert (d3 = c') by (destruct (_ || _)%bool; [congruence|]; destruct (negb _); congruence). subst d3.
    destruct (handle_jsonpath_attr _ _ HD3 HA) as [E|E]; [congruence|].
    apply (proj2 (handle_objects_attr _ _ HD2)) in E. apply (proj2 (handle_labels_attr _ _ HD1)) in E. simpl in E. contradiction.
Qed.

Theorem prepared_fully p n : jp_prepare L "$.*" <> None -> forall n', prepare_node L p n = Ok n' -> fully_prepared L n'.
Proof.
  intro HJ. induction n using node_ind'; cbn [prepare_node]; intros n' HN.
  - apply rmap_ok in HN. destruct HN as (ns' & HN & ->). apply rseq_ok in HN. simpl. apply fold_and.
    induction HN; inversion H; subst; constructor; auto.
  - apply rmap_ok in HN. destruct HN as (ns' & HN & ->). apply rseq_ok in HN. simpl. apply fold_and.
    induction HN; inversion H; subst; constructor; auto.
  - apply rmap_ok in HN. destruct HN as (n1 & HN & ->). simpl; auto.
  - apply rbind_ok in HN. destruct HN as (m' & Hm & HN). apply rbind_ok in HN. destruct HN as (a' & Ha & HN).
    injection HN; intros; subst. split; auto. unfold prepare_aa in Ha. apply rbind_ok in Ha. destruct Ha as (qs & Hq & Ha).
    injection Ha; intros; subst. simpl. intro E. apply app_eq_nil in E. destruct E as [_ ->].
    destruct (split_char "," (a_parent a)) as [|x l] eqn:ES.
    + clear - ES. exfalso. revert ES. destruct (a_parent a); simpl; [discriminate|].
      destruct (Ascii.eqb _ _); [discriminate|]. destruct (split_char "," s); discriminate.
    + cbn [rmapM] in Hq. apply rbind_ok in Hq. destruct Hq as (b & _ & Hq). apply rbind_ok in Hq. destruct Hq as (bs & _ & Hq). discriminate.
  - injection HN; intros; subst; exact I.
  - injection HN; intros; subst; exact I.
  - apply rmap_ok in HN. destruct HN as (c' & HN & ->). simpl. eapply prepared_condition_ready; eauto.
  - discriminate.
Qed.

End Prepared.

(** Syntactic checks for the two predicates. *)
Section Checks.
Variable L : Lib.
Fixpoint closedb (bound : bool) (n : node L) : bool :=
  match n with
  | NTrue | NFalse | NNil => true
  | NCond c => bound || (negb (j_rel (c_jp c)) && forallb (fun kv => negb (snd kv)) (r_rel (c_ret c)))
  | NNot n' => closedb bound n'
  | NAnd ns | NOr ns => forallb (closedb bound) ns
  | NQuant _ a n' =>
    (bound || (negb (relative_parent (a_parent a)) && forallb (fun p => negb (relative_parent p)) (a_parents a)))
    && closedb true n'
  end.

Lemma closedb_ok n : forall bound, closedb bound n = true -> closed L bound n.
Proof.
  induction n using node_ind'; cbn [closedb]; intros bound HB; simpl; auto.
  - apply fold_and. rewrite forallb_forall in HB. rewrite Forall_forall in H |- *. auto.
  - apply fold_and. rewrite forallb_forall in HB. rewrite Forall_forall in H |- *. auto.
  - apply andb_prop in HB. destruct HB as [H1 H2]. split; [|auto]. destruct bound; [auto|right].
    apply andb_prop in H1. destruct H1 as [H0 H1]. rewrite forallb_forall in H1. split.
    + rewrite <- relative_parent_spec. intro E. rewrite E in H0. discriminate.
    + apply Forall_forall. intros p Hp. rewrite <- relative_parent_spec. intro E. specialize (H1 _ Hp). rewrite E in H1. discriminate.
  - destruct bound; [auto|right]. apply andb_prop in HB. destruct HB as [H0 H1].
    split; [destruct (j_rel (c_jp c)); [discriminate|reflexivity]|]. intro k.
    induction (r_rel (c_ret c)) as [|[k' b] l IH]; simpl in *; [discriminate|].
    apply andb_prop in H1. destruct H1 as [H1 H2]. destruct (String.eqb k k'); [destruct b; discriminate|auto].
Qed.

Fixpoint fully_preparedb (n : node L) : bool :=
  match n with
  | NTrue | NFalse | NNil => true
  | NCond c => negb (String.eqb (c_attr c) "jsonpath") || is_some (j_prep (c_jp c))
  | NNot n' => fully_preparedb n'
  | NAnd ns | NOr ns => forallb fully_preparedb ns
  | NQuant _ a n' => negb (match a_prep a with [] => true | _ => false end) && fully_preparedb n'
  end.

Lemma fully_preparedb_ok n : fully_preparedb n = true -> fully_prepared L n.
Proof.
  induction n using node_ind'; cbn [fully_preparedb]; intros HB; simpl; auto.
  - apply fold_and. rewrite forallb_forall in HB. rewrite Forall_forall in H |- *. auto.
  - apply fold_and. rewrite forallb_forall in HB. rewrite Forall_forall in H |- *. auto.
  - apply andb_prop in HB. destruct HB as [H1 H2]. split; [|auto]. destruct (a_prep a); [discriminate|congruence].
  - intros E. rewrite E in HB. simpl in HB. destruct (j_prep (c_jp c)); [congruence|discriminate].
Qed.

Lemma closed_case (o : option (node L)) :
  match o with Some n => closedb false n && fully_preparedb n | None => false end = true ->
  match o with Some n => closed L false n /\ fully_prepared L n | None => False end.
Proof.
  destruct o as [n|]; [|discriminate]. intro H. apply andb_prop in H. destruct H as [H1 H2].
  split; [apply closedb_ok; exact H1|apply fully_preparedb_ok; exact H2].
Qed.
End Checks.
