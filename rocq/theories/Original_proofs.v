(** Proofs about the two ways of splitting an array. *)
From Coq Require Import List String Ascii Bool Arith ZArith Permutation Lia.
From Verif Require Import Base GoStr GoStr_facts GoFloat Types Json Spec_Glob Spec_Json Json_proofs Load_proofs Spec_Load Print_proofs Strings_proofs Decode_proofs Eval
  Spec_Tree Spec_Split Split_proofs Raw_pieces Arrange_proofs Original Spec_Original.
Import ListNotations.
Open Scope string_scope.
Local Arguments String.prefix : simpl never.

(** [v'] is [v] with the entries of its objects listed by increasing key *)
Inductive sorted_as : iface -> iface -> Prop :=
| sa_null : sorted_as GNil GNil
| sa_bool b : sorted_as (GBool b) (GBool b)
| sa_number f : sorted_as (GFloat f) (GFloat f)
| sa_str s : sorted_as (GStr s) (GStr s)
| sa_arr l l' : Forall2 sorted_as l l' -> sorted_as (GArr l) (GArr l')
| sa_map m m' m2 : NoDup (keys m) -> Forall2 (fun a b => fst a = fst b /\ sorted_as (snd a) (snd b)) m m2 -> Permutation m2 m' -> sorted_keys m' ->
    sorted_as (GMapS m) (GMapS m').

Section WithLib.
Variable L : Lib.

Theorem print_sorted v : go_value v -> numbers_kept L v -> exists v' s, json_marshal L v = Some s /\ text L v' s /\ sorted_as v v'.
Proof.
  induction v as [| | | | |l IH|m IH|m IH] using iface_ind'; intros HG HN.
  - exists GNil, "null". repeat split; constructor.
  - exists (GBool b), (if b then "true" else "false"). split; [auto|]. split; [destruct b; constructor|constructor].
  - inversion HN.
  - inversion HN as [| | |? s E1 E2 E3| |]; subst. exists (GFloat f), s. split; [exact E1|]. split; constructor; auto.
  - exists (GStr s), (json_string s). split; [auto|]. split; [apply string_text|constructor].
  - inversion HN as [| | | |? HF|]; subst. inversion HG as [| | | | |? HGF| |]; subst.
    destruct (all_some_forall2 (fun v s => exists v', text L v' s /\ sorted_as v v') (json_marshal L) l) as (ss & ES & HS).
    { clear HN HG. induction IH; inversion HF; inversion HGF; subst; constructor; auto. destruct (H H6 H2) as (v' & s & E & HT & HK). eauto. }
    assert (HV : exists vs, Forall2 (text L) vs ss /\ Forall2 sorted_as l vs).
    { clear -HS. induction HS as [|v s l ss (v' & HT & HK) HS (vs & H1 & H2)]; [exists []; auto|]. exists (v' :: vs). auto. }
    destruct HV as (vs & H1 & H2). exists (GArr vs), ("[" ++ join "," ss ++ "]"). split; [simpl; rewrite ES; auto|].
    split; [apply array_text; auto|constructor; auto].
  - inversion HN as [| | | | |? HF]; subst. inversion HG as [| | | | | |? HD HGF|]; subst.
    destruct (all_some_forall2 (fun kv ks => fst ks = fst kv /\ exists v', text L v' (snd ks) /\ sorted_as (snd kv) v')
      (fun kv => option_map (pair (fst kv)) (json_marshal L (snd kv))) m) as (ss & ES & HS).
    { clear HN HG HD. induction IH as [|kv m H IH2 IHm]; inversion HF; inversion HGF; subst; constructor; auto.
      destruct (H H6 H2) as (v' & s & E & HT & HK). exists (fst kv, s). rewrite E. simpl. eauto. }
    assert (HV : exists m2, Forall2 (fun e ks => fst ks = fst e /\ text L (snd e) (snd ks)) m2 ss /\
      Forall2 (fun a b => fst a = fst b /\ sorted_as (snd a) (snd b)) m m2).
    { clear -HS. induction HS as [|kv ks m ss (E & v' & HT & HK) HS (m2 & H1 & H2)]; [exists []; auto|].
      exists ((fst kv, v') :: m2). split; constructor; auto. }
    destruct HV as (m2 & H1 & H2).
    assert (HP : exists m3, Permutation m2 m3 /\ Forall2 (fun e ks => fst ks = fst e /\ text L (snd e) (snd ks)) m3 (sort_keys ss)).
    { pose proof (sort_perm ss) as HP. apply Permutation_sym in HP. clear -H1 HP. remember (sort_keys ss) as q. clear Heqq.
      revert m2 H1. induction HP; intros m2 H1.
      - inversion H1; subst. exists []. auto.
      - inversion H1; subst. destruct (IHHP _ H4) as (m3 & P1 & P2). exists (x0 :: m3). auto.
      - inversion H1; subst. inversion H4; subst. exists (x1 :: x0 :: l1). split; [constructor|auto].
      - destruct (IHHP1 _ H1) as (m3 & P1 & P2). destruct (IHHP2 _ P2) as (m4 & P3 & P4). exists m4. split; auto. eapply Permutation_trans; eauto. }
    destruct HP as (m3 & HP & H3).
    assert (EK : forall (a : list (string * iface)) b, Forall2 (fun e (ks : string * string) => fst ks = fst e /\ text L (snd e) (snd ks)) a b -> keys a = keys b).
    { clear. induction 1 as [|e ks a b (E & _) HF IH]; [auto|]. unfold keys in *. simpl. rewrite IH, E. auto. }
    assert (EK2 : keys m = keys m2).
    { clear -H2. unfold keys. induction H2 as [|e ks a b (E & _) HF IH]; [auto|]. simpl. rewrite IH, E. auto. }
    assert (HSS : sorted_keys (sort_keys ss)) by (apply sort_sorted; rewrite <- (EK _ _ H1), <- EK2; auto).
    assert (HS3 : sorted_keys m3).
    { clear -H3 HSS. revert HSS. induction H3 as [|e ks a b (E & _) HF IH]; intro HSS; [constructor|]. inversion HF as [|e2 ks2 a2 b2 (E2 & _) HF2]; subst; [constructor|].
      inversion HSS; subst. constructor; auto. rewrite <- E, <- E2. auto. }
    assert (HN3 : NoDup (keys m3)).
    { eapply Permutation_NoDup; [apply perm_keys, HP|]. rewrite <- EK2. auto. }
    eexists (GMapS m3), _. split; [cbn [json_marshal]; rewrite ES; reflexivity|].
    split; [|eapply sa_map; eauto].
    apply object_text; auto. clear -H3. induction H3 as [|e ks a b (E & HT) HF IH]; simpl; constructor; auto.
    exists (json_escape (fst ks)), (snd ks). split; [|split; [rewrite E; apply escape_chars|auto]].
    unfold json_string, member. rewrite !append_assoc. auto.
  - inversion HN.
Qed.

Lemma nodup_value {A} (m : list (string * A)) k a b : NoDup (keys m) -> In (k, a) m -> In (k, b) m -> a = b.
Proof.
  unfold keys. induction m as [|[k' c] m IH]; simpl; intros HD H1 H2; [destruct H1|]. inversion HD; subst.
  destruct H1 as [E1|H1], H2 as [E2|H2]; try congruence; auto.
  - inversion E1; subst. exfalso. apply H3. apply (in_map fst) in H2. exact H2.
  - inversion E2; subst. exfalso. apply H3. apply (in_map fst) in H1. exact H1.
Qed.
Lemma sorted_same v : forall v', sorted_as v v' -> same_value v v'.
Proof.
  induction v as [| | | | |l IH|m IH|m IH] using iface_ind'; intros v' H; inversion H as [| | | |? l' HF|? m' m2 HD HF HP HS]; subst; try (constructor; fail).
  - constructor. clear H. revert IH. induction HF; intro IH; inversion IH; subst; constructor; auto.
  - assert (A : forall k v, In (k, v) m -> exists w, In (k, w) m' /\ sorted_as v w).
    { intros k v HI. assert (B : exists w, In (k, w) m2 /\ sorted_as v w).
      { clear -HF HI. induction HF as [|[k1 a] [k2 b] m m2 (E & HA) HF IH]; [destruct HI|]. simpl in *. subst k2. destruct HI as [E|HI].
        - inversion E; subst. eauto.
        - destruct (IH HI) as (w & HW & HS). eauto. }
      destruct B as (w & HW & HSA). exists w. split; auto. eapply Permutation_in; eauto. }
    assert (B : forall k w, In (k, w) m' -> exists v, In (k, v) m).
    { intros k w HI. apply Permutation_sym in HP. apply (Permutation_in _ HP) in HI. clear -HF HI.
      induction HF as [|[k1 a] [k2 b] m m2 (E & HA) HF IH]; [destruct HI|]. simpl in *. subst k2. destruct HI as [E|HI].
      - inversion E; subst. eauto.
      - destruct (IH HI) as (v & HV). eauto. }
    assert (HD' : NoDup (keys m')).
    { eapply Permutation_NoDup; [apply perm_keys, HP|]. replace (keys m2) with (keys m); auto. clear -HF. unfold keys.
      induction HF as [|a b m m2 (E & _) HF IH]; [auto|]. simpl. rewrite IH, E. auto. }
    constructor.
    + intro k. split; intros (v & HI); [destruct (A _ _ HI) as (w & HW & _); eauto|eauto].
    + intros k v w H1 H2. destruct (A _ _ H1) as (w' & HW & HSA). rewrite (nodup_value _ _ _ _ HD' H2 HW).
      rewrite Forall_forall in IH. exact (IH (k, v) H1 w' HSA).
Qed.

Lemma all_some_perm {A B} (f : A -> option B) l l' : Permutation l l' -> forall xs, all_some (map f l) = Some xs ->
  exists xs', all_some (map f l') = Some xs' /\ Permutation xs xs'.
Proof.
  induction 1 as [|a l l' HP IH|a b l|l l1 l2 H1 IH1 H2 IH2]; intros xs E.
  - exists xs. auto.
  - simpl in *. destruct (f a) as [x|]; [|discriminate E]. destruct (all_some (map f l)) as [ys|]; [|discriminate E].
    destruct (IH ys eq_refl) as (ys' & -> & HP'). inversion E; subst. exists (x :: ys'). auto.
  - simpl in *. destruct (f a) as [x|], (f b) as [y|]; try discriminate E; destruct (all_some (map f l)) as [ys|]; try discriminate E.
    inversion E; subst. eexists. split; [reflexivity|constructor].
  - destruct (IH1 _ E) as (x1 & E1 & P1). destruct (IH2 _ E1) as (x2 & E2 & P2). exists x2. split; auto. eapply Permutation_trans; eauto.
Qed.
Lemma all_some_keys (f : iface -> option string) m : forall xs,
  all_some (map (fun kv : string * iface => option_map (pair (fst kv)) (f (snd kv))) m) = Some xs -> keys xs = keys m.
Proof.
  unfold keys. induction m as [|[k v] m IH]; simpl; intros xs E; [inversion E; auto|].
  destruct (f v) as [x|]; [|discriminate E]. simpl in E. destruct (all_some _) as [ys|]; [|discriminate E]. inversion E; subst. simpl. f_equal. auto.
Qed.
Lemma sorted_prints v : forall v' s, sorted_as v v' -> json_marshal L v = Some s -> json_marshal L v' = Some s.
Proof.
  induction v as [| | | | |l IH|m IH|m IH] using iface_ind'; intros v' s0 H ES; inversion H as [| | | |? l' HF|? m' m2 HD HF HP HS]; subst; auto.
  - cbn [json_marshal] in *. replace (all_some (map (json_marshal L) l')) with (all_some (map (json_marshal L) l)); auto.
    destruct (all_some (map (json_marshal L) l)) as [xs|] eqn:E; [|discriminate ES]. clear ES H. revert xs E.
    induction HF as [|a b l l' HA HF IH2]; intros xs E; [auto|]. inversion IH; subst. simpl in *.
    destruct (json_marshal L a) as [x|] eqn:EA; [|discriminate E]. rewrite (H1 _ _ HA eq_refl).
    destruct (all_some (map (json_marshal L) l)) as [ys|]; [|discriminate E]. rewrite <- (IH2 H2 ys eq_refl). auto.
  - cbn [json_marshal] in *. set (f := fun kv : string * iface => option_map (pair (fst kv)) (json_marshal L (snd kv))) in *.
    destruct (all_some (map f m)) as [xs|] eqn:E; [|discriminate ES].
    assert (E2 : all_some (map f m2) = Some xs).
    { clear -IH HF E. subst f. revert xs E. induction HF as [|a b m m2 (EK & HA) HF IH2]; intros xs E; [auto|]. inversion IH; subst. simpl in *.
      destruct (json_marshal L (snd a)) as [x|] eqn:EA; [|discriminate E]. rewrite (H1 _ _ HA eq_refl). rewrite <- EK. cbn [option_map] in *.
      match goal with |- context [all_some ?t] => destruct (all_some (map (fun kv : string * iface => option_map (pair (fst kv)) (json_marshal L (snd kv))) m)) as [ys|] end;
        [|discriminate E]. rewrite (IH2 H2 ys eq_refl). auto. }
    destruct (all_some_perm f _ _ HP _ E2) as (xs' & -> & HP'). rewrite <- ES. cbn [option_map]. rewrite (sort_keys_perm xs xs'); auto.
    rewrite (all_some_keys _ _ _ E). auto.
Qed.

(** ** The slower splitter *)
Lemma original_texts vs : Forall go_value vs -> Forall (numbers_kept L) vs ->
  exists us, all_some (map (json_marshal L) vs) = Some us /\ Forall2 (fun v u => exists v', text L v' u /\ sorted_as v v') vs us.
Proof.
  intros HG HN. apply all_some_forall2. induction HG; inversion HN; subst; constructor; auto.
  destruct (print_sorted x H H2) as (v' & s & E & HT & HS). eauto.
Qed.
Lemma text_document v t : text L v t -> document L v t.
Proof. intro H. exists "", t, "". repeat split; auto. simpl. rewrite append_nil_r. auto. Qed.
Lemma document_unique v v' t : document L v t -> document L v' t -> v = v'.
Proof. intros H H'. apply parse_iff in H. apply parse_iff in H'. congruence. Qed.
Lemma same_sym_object v v' : same_value v v' -> an_object v <-> an_object v'.
Proof. intro H. inversion H; subst; split; intros [q E]; try discriminate E; eexists; reflexivity. Qed.
Lemma objects_are_objects : (forall t os, objects_in L t os -> Forall (fun o => exists m, text L (GMapS m) o) os) /\
  (forall s os, objects_in_elements L s os -> Forall (fun o => exists m, text L (GMapS m) o) os).
Proof.
  assert (HM : forall t os, objects_in L t os -> Forall (fun o => exists m, text L (GMapS m) o) os).
  { fix F 3. intros t os H. destruct H as [m t HT|v t HT H1 H2|w HW|s os HE]; try (constructor; fail).
    - repeat constructor. eauto.
    - revert s os HE. fix G 3. intros s os HE. destruct HE as [t w1 w2 os H1 H2 HO|t w1 w2 os s os' H1 H2 HO HE].
      + exact (F _ _ HO).
      + apply Forall_app. split; [exact (F _ _ HO)|exact (G _ _ HE)]. }
  split; auto. intros s os HE. apply (HM ("[" ++ s ++ "]")). constructor. auto.
Qed.

Theorem split_agree t vs : json_parse L t = Some (GArr vs) -> Forall (numbers_kept L) vs -> braceless_strings t ->
  (Forall an_object vs <-> exists ts us, split_objects t = Some ts /\ split_original L t = Some us /\ Forall2 (same_text L) ts us).
Proof.
  intros HP HN HB. pose proof (parsed_go_value _ _ _ HP) as HG. inversion HG as [| | | | |? HGF| |]; subst.
  destruct (original_texts vs HGF HN) as (us & EU & HU). unfold split_original. rewrite HP. split.
  - intro HO. destruct (split_decoded L vs t HP HO HB) as (ts & ES & HT). exists ts, us. split; auto. split; auto.
    clear -HT HU. revert us HU. induction HT as [|v o vs ts E HT IH]; intros us HU; inversion HU as [|? u ? us' (v' & HX & HS) HU']; subst; constructor; auto.
    exists v, v'. split; [apply parse_iff; auto|]. split; [apply text_document; auto|]. apply sorted_same; auto.
  - intros (ts & us' & ES & EU' & HF). rewrite EU in EU'. inversion EU'; subst us'. clear EU'.
    apply parse_iff in HP. destruct HP as (w1 & t' & w2 & H1 & H2 & HT & ->).
    destruct (proj1 (objects_exist L) _ _ HT) as [os HO].
    assert (E : split_objects (w1 ++ t' ++ w2) = Some os) by (eapply split_text; eauto; discriminate).
    rewrite ES in E. inversion E; subst os. pose proof (proj1 objects_are_objects _ _ HO) as HM. clear -HU HF HM. revert ts HF HM.
    induction HU as [|v u vs us (v' & HX & HS) HU IH]; intros ts HF HM; [constructor|]. inversion HF as [|a ? ts' ? (x & x' & D1 & D2 & HV) HF']; subst.
    inversion HM as [|? ? [m HA] HM']; subst. constructor; [|eauto].
    apply (same_sym_object v v'); [apply sorted_same; auto|]. rewrite (document_unique _ _ _ (text_document _ _ HX) D2).
    apply (same_sym_object x x' HV). rewrite (document_unique _ _ _ D1 (text_document _ _ HA)). eexists. reflexivity.
Qed.

(** on the output of json.Marshal they return the same bytes *)
Lemma joined_objects us : us <> [] -> Forall (fun u => exists m, text L (GMapS m) u) us -> objects_in_elements L (join "," us) us.
Proof.
  intros HN HF. induction HF as [|u us [m HT] HF IH]; [congruence|]. destruct us as [|u2 us].
  - change (join "," [u]) with u. rewrite <- (append_nil_r u) at 1. apply (oe_one L u "" ""); try exact I. eapply oi_object; eauto.
  - rewrite join_cons. apply (oe_cons L u "" "" [u] _ (u2 :: us)); try exact I; [eapply oi_object; eauto|]. apply IH. discriminate.
Qed.
Theorem split_marshalled vs t : Forall go_value vs -> Forall an_object vs -> Forall (numbers_kept L) vs ->
  json_marshal L (GArr vs) = Some t -> braceless_strings t ->
  exists us, all_some (map (json_marshal L) vs) = Some us /\ split_objects t = Some us /\ split_original L t = Some us.
Proof.
  intros HG HO HN HM HB. destruct (original_texts vs HG HN) as (us & EU & HU). exists us. split; auto.
  cbn [json_marshal] in HM. rewrite EU in HM. cbn [option_map] in HM. assert (E : "[" ++ join "," us ++ "]" = t) by congruence. clear HM.
  assert (HV : exists vs', Forall2 (text L) vs' us /\ Forall2 sorted_as vs vs').
  { clear -HU. induction HU as [|v s l ss (v' & HT & HK) HS (vs & H1 & H2)]; [exists []; auto|]. exists (v' :: vs). auto. }
  destruct HV as (vs' & HT & HS). pose proof (array_text L vs' us HT) as HA. rewrite E in HA. split.
  - assert (HX : objects_in L t us).
    { assert (HQ : Forall (fun u => exists m, text L (GMapS m) u) us).
      { clear -HO HU. revert HO. induction HU as [|v u vs us (v' & HX & HS) HU IH]; intro HO; inversion HO; subst; constructor; auto.
        apply sorted_same in HS. apply (same_sym_object _ _ HS) in H1. destruct H1 as [m ->]. eauto. }
      rewrite <- E. destruct us as [|u us']; [apply (oi_empty L ""); exact I|]. apply oi_array. apply joined_objects; [discriminate|auto]. }
    rewrite <- (append_nil_r t) in HB |- *. apply (split_text L (GArr vs') "" t ""); try exact I; auto; discriminate.
  - unfold split_original. replace (json_parse L t) with (Some (GArr vs')) by (symmetry; apply parse_iff, text_document; auto).
    clear -HS EU. revert us EU. induction HS as [|v v' vs vs' H HS IH]; intros us EU; [exact EU|]. simpl in *.
    destruct (json_marshal L v) as [x|] eqn:EX; [|discriminate EU]. rewrite (sorted_prints _ _ _ H EX).
    destruct (all_some (map (json_marshal L) vs)) as [ys|]; [|discriminate EU]. rewrite (IH ys eq_refl). auto.
Qed.

Lemma all_some_listed {A B} (f : A -> option B) l : forall xs, all_some (map f l) = Some xs -> Forall2 (fun a x => f a = Some x) l xs.
Proof.
  induction l as [|a l IH]; simpl; intros xs E; [inversion E; constructor|]. destruct (f a) as [x|] eqn:EA; [|discriminate E].
  destruct (all_some (map f l)) as [ys|]; [|discriminate E]. inversion E; subst. constructor; auto.
Qed.
Theorem marshalled_same vs t : Forall go_value vs -> Forall an_object vs -> Forall (numbers_kept L) vs ->
  json_marshal L (GArr vs) = Some t -> braceless_strings t ->
  exists us, Forall2 (fun v u => json_marshal L v = Some u) vs us /\ split_objects t = Some us /\ split_original L t = Some us.
Proof.
  intros HG HO HN HM HB. destruct (split_marshalled vs t HG HO HN HM HB) as (us & E & H). exists us. split; auto. apply all_some_listed. auto.
Qed.
Theorem split_errors t : (forall vs, document L (GArr vs) t -> Forall (numbers_kept L) vs) ->
  (split_original L t = None <-> ~ document L GNil t /\ ~ exists vs, document L (GArr vs) t) /\ (split_objects t = None <-> starts "{" t).
Proof.
  intro HN. split; [|apply split_none]. unfold split_original. split.
  - intro E. split.
    + intro HD. apply parse_iff in HD. rewrite HD in E. discriminate E.
    + intros (vs & HD). pose proof HD as HP. apply parse_iff in HP. rewrite HP in E. pose proof (parsed_go_value _ _ _ HP) as HG.
      inversion HG as [| | | | |? HGF| |]; subst. destruct (original_texts vs HGF (HN _ HD)) as (us & EU & _). congruence.
  - intros (H1 & H2). destruct (json_parse L t) as [v|] eqn:E; auto. apply parse_iff in E.
    destruct v; auto; [destruct (H1 E)|destruct H2; eauto].
Qed.
End WithLib.
