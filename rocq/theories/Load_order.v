(** Loading does not depend on the order in which maps are visited, when no ANY or ALL map holds two inner conditions. *)
From Coq Require Import List String Ascii Bool Arith ZArith Permutation Lia.
From Verif Require Import Base GoStr GoStr_facts GoFloat Types Json StrUtils Validate Prepare Parse Spec_Tree Match_proofs
  Spec_Leaf Leaf_proofs Spec_Validate Validate_proofs Spec_Load Lifecycle Spec_Lifecycle Lifecycle_proofs Load_proofs.
Import ListNotations.
Open Scope string_scope.
Local Arguments String.prefix : simpl never.

Section WithLib.
Variable L : Lib.

(** ** Returned values *)
Definition ret_map (v : iface) : res (list (string * iface)) :=
  match v with GMapS m => Ok m | GMapI m => map_to_string_keys m [] | _ => Err end.
Definition ret_value (v : iface) (old r : retpart L) : Prop :=
  exists m, ret_map v = Ok m /\
    (forall k, In k (keys m) -> exists s, as_string (match assoc k m with Some x => x | None => GNil end) = Ok s /\ starts "jsonpath:$RELATIVE" s) /\
    match m with [] => r = old | _ => exists s, strings_of_map m = Ok s /\ r = set_return_values L s end.
Lemma check_return_iff m ks : check_return_values m ks = Ok tt <->
  forall k, In k ks -> exists s, as_string (match assoc k m with Some x => x | None => GNil end) = Ok s /\ starts "jsonpath:$RELATIVE" s.
Proof.
  induction ks as [|k ks IH]; cbn [check_return_values].
  - split; [intros _ k []|auto].
  - split.
    + intro H. apply rbind_ok in H. destruct H as (s & HS & H). destruct (has_prefix s _) eqn:E; [|discriminate].
      intros k' [<-|HI]; [|apply (proj1 IH); auto]. exists s. split; auto. apply starts_iff. auto.
    + intro H. destruct (H k) as (s & HS & HP); [left; auto|]. rewrite HS. cbn [rbind]. apply starts_iff in HP. rewrite HP.
      apply IH. intros. apply H. right; auto.
Qed.
Lemma return_iff ord v old r t : fair ord -> (exists t', aa_return L ord v old t = (Ok r, t')) <-> ret_value v old r.
Proof.
  intro HF. unfold aa_return, ret_value, pbind, pret, prange. fold (ret_map v). destruct (ret_map v) as [m| |] eqn:EM.
  2,3: split; [intros [? H]; discriminate|intros (m & H & _); discriminate].
  assert (HE : check_return_values m (ord t (keys m)) = Ok tt <->
    forall k, In k (keys m) -> exists s, as_string (match assoc k m with Some x => x | None => GNil end) = Ok s /\ starts "jsonpath:$RELATIVE" s).
  { rewrite check_return_iff. pose proof (HF t (keys m)) as HP.
    split; intros H k HK; apply H; [eapply Permutation_in; [apply Permutation_sym; exact HP|auto]|eapply Permutation_in; [exact HP|auto]]. }
  split.
  - intros [t' H]. exists m. split; auto. destruct (check_return_values m (ord t (keys m))) as [[]| |]; try discriminate.
    split; [apply HE; auto|]. injection H; intros _ H1. destruct m; [injection H1; auto|].
    apply rbind_ok in H1. destruct H1 as (s & HS & H1). injection H1; intros <-. eauto.
  - intros (m' & H & HC & HR). injection H; intros <-. apply HE in HC. rewrite HC. eexists. f_equal.
    destruct m; [subst; auto|]. destruct HR as (s & HS & ->). rewrite HS. auto.
Qed.

(** ** The loop over the keys of ANY and ALL *)
Section Loop.
Variable R : string -> node L -> Prop.        (* results for the inner keys *)
Variable v : list (string * iface).

Inductive effect : string -> aanode L * node L -> aanode L * node L -> Prop :=
| ef_parent a inner s : assoc "parentJsonpathAttribute" v = Some (GStr s) -> valid_parent s = true ->
    effect "parentJsonpathAttribute" (a, inner) (mkAA (replace_all s "jsonpath:" "") (a_parents a) s (a_ret a) (a_prep a), inner)
| ef_return a inner x r : assoc "returnValueJsonpath" v = Some x -> ret_value x (a_ret a) r ->
    effect "returnValueJsonpath" (a, inner) (mkAA (a_parent a) (a_parents a) (a_orig a) r (a_prep a), inner)
| ef_inner k a inner n : inner_key k -> In k (keys v) -> R k n -> effect k (a, inner) (a, n).
Inductive chain : list string -> aanode L * node L -> aanode L * node L -> Prop :=
| ch_nil s : chain [] s s
| ch_cons k ks s1 s2 s3 : effect k s1 s2 -> chain ks s2 s3 -> chain (k :: ks) s1 s3.

Lemma chain_perm ks ks' : Permutation ks ks' -> NoDup ks ->
  (forall k k', In k ks -> In k' ks -> inner_key k -> inner_key k' -> k = k') ->
  forall s s', chain ks s s' -> chain ks' s s'.
Proof.
  induction 1 as [|k ks ks' HP IH|x y ks|ks1 ks2 ks3 HP1 IH1 HP2 IH2]; intros HN H1 s s' HC.
  - auto.
  - inversion HC; subst. econstructor; eauto. apply IH; auto.
    + inversion HN; auto.
    + intros. apply H1; auto; right; auto.
  - inversion HC as [|? ? ? s2 ? E1 HC1]; subst. inversion HC1 as [|? ? ? s3 ? E2 HC2]; subst.
    inversion HN as [|? ? N1 N2]; subst.
    assert (HXY : x <> y) by (intro E; apply N1; left; auto).
    assert (HI : ~ (inner_key x /\ inner_key y)) by (intros [I1 I2]; apply HXY; apply H1; simpl; auto).
    clear HC HC1 HN N1 N2 H1.
    assert (HS : exists s4, effect x s s4 /\ effect y s4 s3).
    { destruct E1 as [a inner p P1 P2|a inner z r P1 P2|k a inner n P0 P1 P2]; inversion E2 as [a' inner' p' Q1 Q2|a' inner' z' r' Q1 Q2|k' a' inner' n' Q0 Q1 Q2]; subst;
        try congruence; try tauto; cbn [a_parent a_parents a_orig a_ret a_prep] in *.
      - exists (mkAA (a_parent a) (a_parents a) (a_orig a) r' (a_prep a), inner). split; [eapply ef_return; eauto|].
        exact (ef_parent (mkAA (a_parent a) (a_parents a) (a_orig a) r' (a_prep a)) inner p P1 P2).
      - exists (a, n'). split; [eapply ef_inner; eauto|]. eapply ef_parent; eauto.
      - exists (mkAA (replace_all p' "jsonpath:" "") (a_parents a) p' (a_ret a) (a_prep a), inner). split; [eapply ef_parent; eauto|].
        exact (ef_return (mkAA (replace_all p' "jsonpath:" "") (a_parents a) p' (a_ret a) (a_prep a)) inner z r P1 P2).
      - exists (a, n'). split; [eapply ef_inner; eauto|]. eapply ef_return; eauto.
      - eexists. split; [eapply ef_parent; eauto|]. eapply ef_inner; eauto.
      - eexists. split; [eapply ef_return; eauto|]. eapply ef_inner; eauto. }
    destruct HS as (s4 & F1 & F2). econstructor; [exact F1|]. econstructor; [exact F2|auto].
  - apply IH2.
    + eapply Permutation_NoDup; eauto.
    + intros k k' K1 K2. apply H1; eapply Permutation_in; try (apply Permutation_sym; eassumption); auto.
    + apply IH1; auto.
Qed.
End Loop.

Lemma assoc_plain k (v : kids L) : assoc k (plain L v) = match assoc k v with Some e => Some (fst e) | None => None end.
Proof. induction v as [|(x, e) v IH]; simpl; auto. destruct (String.eqb k x); auto. Qed.
Lemma keys_plain (v : kids L) : keys (plain L v) = keys v.
Proof. unfold keys, plain. rewrite map_map. auto. Qed.
Lemma assoc_keys {A} k (a : A) l : assoc k l = Some a -> In k (keys l).
Proof. intro H. apply assoc_in in H. apply in_map_iff. exists (k, a). auto. Qed.
Lemma keys_assoc {A} k (l : list (string * A)) : In k (keys l) -> exists a, assoc k l = Some a.
Proof.
  induction l as [|(x, b) l IH]; simpl; [tauto|]. intros [<-|H]; [rewrite String.eqb_refl; eauto|]. destruct (String.eqb k x); eauto.
Qed.

Lemma loop_chain ord (R : string -> node L -> Prop) (v : kids L) ks : fair ord ->
  (forall k x i t n t', assoc k v = Some (x, i) -> inner_key k -> i k t = (Ok n, t') -> R k n) ->
  forall a inner t s t', aa_loop L ord v ks a inner t = (Ok s, t') -> chain R (plain L v) ks (a, inner) s.
Proof.
  intros HF HR. induction ks as [|k ks IH]; intros a inner t s t' H; cbn [aa_loop] in H.
  - apply pret_ok in H. destruct H as [H _]. injection H; intros <-. constructor.
  - destruct (assoc k v) as [[x i]|] eqn:EA; [|discriminate].
    destruct (String.eqb k "parentJsonpathAttribute") eqn:E1; [|destruct (String.eqb k "returnValueJsonpath") eqn:E2].
    + apply String.eqb_eq in E1. subst k. apply pbind_ok in H. destruct H as (p & t1 & HS & H). apply pret_ok in HS. destruct HS as [HS ->].
      destruct (valid_parent p) eqn:EV; [|discriminate]. destruct x; try discriminate. cbn [as_string] in HS. injection HS; intros ->.
      econstructor; [|eapply IH; exact H]. apply ef_parent; auto. rewrite assoc_plain, EA. auto.
    + apply String.eqb_eq in E2. subst k. apply pbind_ok in H. destruct H as (r & t1 & HS & H).
      econstructor; [|eapply IH; exact H]. apply ef_return with (x := x); [rewrite assoc_plain, EA; auto|]. eapply return_iff; eauto.
    + apply String.eqb_neq in E1, E2. apply pbind_ok in H. destruct H as (n & t1 & HS & H).
      econstructor; [|eapply IH; exact H]. apply ef_inner; [split; auto|rewrite keys_plain; eapply assoc_keys; eauto|eapply HR; eauto; split; auto].
Qed.
Lemma chain_loop ord (R : string -> node L -> Prop) (v : kids L) ks : fair ord ->
  (forall k x i t n, assoc k v = Some (x, i) -> inner_key k -> R k n -> exists t', i k t = (Ok n, t')) ->
  forall s0 s t, chain R (plain L v) ks s0 s -> exists t', aa_loop L ord v ks (fst s0) (snd s0) t = (Ok s, t').
Proof.
  intros HF HR s0 s t HC. revert t. induction HC as [s|k ks s1 s2 s3 HE HC IH]; intro t; cbn [aa_loop].
  - destruct s. exists t. reflexivity.
  - inversion HE as [a inner p E1 E2|a inner x r E1 E2|k' a inner n HI HK HN]; subst; cbn [fst snd] in *.
    + rewrite assoc_plain in E1. destruct (assoc _ v) as [[x i]|]; [|discriminate]. injection E1; intros ->. rewrite String.eqb_refl.
      unfold pbind, pret. cbn [as_string]. rewrite E2. apply IH.
    + rewrite assoc_plain in E1. destruct (assoc _ v) as [[y i]|]; [|discriminate]. injection E1; intros ->.
      change (String.eqb "returnValueJsonpath" "parentJsonpathAttribute") with false. rewrite String.eqb_refl. cbv iota.
      apply (return_iff ord x (a_ret a) r t HF) in E2. destruct E2 as [t' E2]. unfold pbind. cbn [fst]. rewrite E2. apply IH.
    + rewrite keys_plain in HK. apply keys_assoc in HK. destruct HK as [[x i] HA]. rewrite HA. destruct HI as [I1 I2].
      pose proof I1 as J1. pose proof I2 as J2. apply String.eqb_neq in J1, J2. rewrite J1, J2.
      destruct (HR _ _ _ t _ HA (conj I1 I2) HN) as [t' E]. unfold pbind. rewrite E. apply IH.
Qed.

(** ** Two visiting orders *)
Variables ord ord' : order.
Hypothesis Hfair : fair ord.
Hypothesis Hfair' : fair ord'.

Definition agree_on (i j : string -> P (node L)) (k : string) : Prop :=
  forall t t' n u, i k t = (Ok n, u) -> exists u', j k t' = (Ok n, u').
Definition kid_agrees (a b : string * (iface * (string -> P (node L)))) : Prop :=
  fst a = fst b /\ fst (snd a) = fst (snd b) /\ agree_on (snd (snd a)) (snd (snd b)) (fst a).

Lemma kids_plain_eq (v v' : kids L) : Forall2 kid_agrees v v' -> plain L v = plain L v'.
Proof. induction 1 as [|(k, (x, i)) (k', (y, j)) v v' (E1 & E2 & _) HF IH]; simpl in *; [auto|]. subst. f_equal. auto. Qed.
Lemma kids_keys_eq (v v' : kids L) : Forall2 kid_agrees v v' -> keys v = keys v'.
Proof. intro H. rewrite <- (keys_plain v), <- (keys_plain v'), (kids_plain_eq _ _ H). auto. Qed.
Lemma kids_assoc_agree (v v' : kids L) k : Forall2 kid_agrees v v' ->
  match assoc k v, assoc k v' with
  | Some a, Some b => kid_agrees (k, a) (k, b)
  | None, None => True
  | _, _ => False
  end.
Proof.
  induction 1 as [|(x, a) (y, b) v v' HS HF IH]; simpl; [auto|]. pose proof HS as (E1 & E2 & E3). simpl in E1, E2, E3. subst y.
  destruct (String.eqb k x) eqn:E; auto. apply String.eqb_eq in E. subst. auto.
Qed.

Lemma any_all_agree q (v v' : kids L) t t' n u : Forall2 kid_agrees v v' -> NoDup (keys v) ->
  (forall k k', In k (keys v) -> In k' (keys v) -> inner_key k -> inner_key k' -> k = k') ->
  any_all_node L ord q v t = (Ok n, u) -> exists u', any_all_node L ord' q v' t' = (Ok n, u').
Proof.
  intros HF HN H1 H. unfold any_all_node in *.
  assert (EL : List.length v = List.length v') by (clear -HF; induction HF; simpl; auto).
  rewrite <- EL, <- (kids_keys_eq _ _ HF). destruct (negb _); [discriminate|]. destruct (negb _); [discriminate|].
  apply pbind_ok in H. destruct H as (ks & t1 & HK & H). unfold prange in HK. injection HK; intros <- <-.
  apply pbind_ok in H. destruct H as ((a, inner) & t2 & HL & H).
  set (R := fun k n => forall x j t, assoc k v' = Some (x, j) -> exists t', j k t = (Ok n, t')).
  assert (HC : chain R (plain L v) (ord t (keys v)) (empty_aa L, NNil) (a, inner)).
  { eapply (loop_chain ord R v _ Hfair); [|exact HL]. intros k x i t3 n3 t4 HA HI HE y j t5 HA'. pose proof (kids_assoc_agree v v' k HF) as HK'. rewrite HA, HA' in HK'.
    destruct HK' as (_ & _ & HG). cbn [fst snd] in HG. eapply HG. exact HE. }
  assert (HC' : chain R (plain L v') (ord' t' (keys v)) (empty_aa L, NNil) (a, inner)).
  { rewrite <- (kids_plain_eq _ _ HF). eapply chain_perm; [| | |exact HC].
    - eapply Permutation_trans; [apply Hfair|apply Permutation_sym, Hfair'].
    - eapply Permutation_NoDup; [apply Permutation_sym, Hfair|auto].
    - intros k k' K1 K2. apply H1; eapply Permutation_in; try apply Hfair; eauto. }
  apply (chain_loop ord' R v' _ Hfair') with (t := S t') in HC'.
  - destruct HC' as [t4 HC']. cbn [fst snd] in HC'. unfold pbind, prange. rewrite <- (kids_keys_eq _ _ HF), HC'.
    destruct (String.eqb (a_parent a) ""); [discriminate|]. apply pret_ok in H. destruct H as [H _]. exists t4. unfold pret. rewrite H. auto.
  - intros k x i t3 n3 HA HI HR. eapply HR. exact HA.
Qed.

Lemma handle_agree (v v' : kids L) p t t' n u : Forall2 kid_agrees v v' -> NoDup (keys v) ->
  (In p ["ANY"; "ALL"] -> forall k k', In k (keys v) -> In k' (keys v) -> inner_key k -> inner_key k' -> k = k') ->
  handle_map L ord v p t = (Ok n, u) -> exists u', handle_map L ord' v' p t' = (Ok n, u').
Proof.
  intros HF HN H1 H. unfold handle_map in *.
  assert (EC : is_condition_node v = is_condition_node v') by (unfold is_condition_node; rewrite (kids_keys_eq _ _ HF); auto).
  rewrite <- EC, <- (kids_plain_eq _ _ HF). destruct (is_condition_node v).
  { apply pret_ok in H. destruct H as [H _]. exists t'. unfold pret. rewrite H. auto. }
  destruct (is_any p ["ANY"]) eqn:EA.
  { eapply any_all_agree; eauto. apply H1. apply is_any_in in EA. destruct EA as [<-|[]]. simpl; auto. }
  destruct (is_any p ["ALL"]) eqn:EB.
  { eapply any_all_agree; eauto. apply H1. apply is_any_in in EB. destruct EB as [<-|[]]. simpl; auto. }
  destruct (is_any p ["NOT"]).
  - destruct v as [|(k, (x, i)) [|? ?]]; try discriminate. inversion HF as [|? [k' [y j]] ? ? (E1 & E2 & E3) HF2]; subst.
    inversion HF2; subst. cbn [fst snd] in *. subst k'. apply pbind_ok in H. destruct H as (m & t1 & HM & H). apply pret_ok in H. destruct H as [H _].
    destruct (E3 _ t' _ _ HM) as [u' HJ]. exists u'. unfold pbind, pret. rewrite HJ, H. auto.
  - destruct (is_any p ["OR"; "AND"; ""; "condition"; "conditions"; "conditionsTree"]); [|discriminate]. destruct v as [|(k, (x, i)) [|? ?]]; try discriminate.
    inversion HF as [|? [k' [y j]] ? ? (E1 & E2 & E3) HF2]; subst. inversion HF2; subst. cbn [fst snd] in *. subst k'. eapply E3. exact H.
Qed.

Lemma pseq_agree {A} (l l' : list (P A)) : Forall2 (fun a b => forall t t' n u, a t = (Ok n, u) -> exists u', b t' = (Ok n, u')) l l' ->
  forall t t' ns u, pseq l t = (Ok ns, u) -> exists u', pseq l' t' = (Ok ns, u').
Proof.
  induction 1 as [|a b l l' HA HF IH]; intros t t' ns u H; cbn [pseq] in *.
  - apply pret_ok in H. destruct H as [H _]. exists t'. unfold pret. rewrite H. auto.
  - apply pbind_ok in H. destruct H as (x & t1 & HX & H). apply pbind_ok in H. destruct H as (ys & t2 & HY & H). apply pret_ok in H. destruct H as [H _].
    destruct (HA _ t' _ _ HX) as [u1 HX']. destruct (IH _ u1 _ _ HY) as [u2 HY']. exists u2. unfold pbind, pret. rewrite HX', HY', H. auto.
Qed.

(** the entries of a map with any type of key, as string keys *)
Lemma string_kids_agree (m : list (iface * iface)) f g acc acc' m1 :
  (forall k x, In (GStr k, x) m -> agree_on (f x) (g x) k) -> Forall2 kid_agrees acc acc' ->
  map_to_string_keys (map (fun kv => (fst kv, (snd kv, f (snd kv)))) m) acc = Ok m1 ->
  exists m2, map_to_string_keys (map (fun kv => (fst kv, (snd kv, g (snd kv)))) m) acc' = Ok m2 /\ Forall2 kid_agrees m1 m2.
Proof.
  revert acc acc'. induction m as [|(k, x) m IH]; intros acc acc' HG HA H; cbn [map map_to_string_keys] in *.
  - injection H; intros <-. eauto.
  - cbn [fst snd] in *. apply rbind_ok in H. destruct H as (s & HS & H). rewrite HS. cbn [rbind]. destruct k; try discriminate. cbn [as_string] in HS. injection HS; intros ->.
    eapply IH; [intros; apply HG; right; auto| |exact H].
    clear H IH. induction HA as [|(k1, a) (k2, b) acc acc' (E1 & E2 & E3) HA IHA]; simpl.
    + constructor; auto. split; auto. split; auto. apply HG. left; auto.
    + simpl in E1, E2, E3. subst k2. destruct (String.eqb s k1); constructor; auto.
      * split; auto. split; auto. apply HG. left; auto.
      * split; auto.
Qed.

Lemma string_keys_from {A} (m : list (iface * A)) acc m' : map_to_string_keys m acc = Ok m' ->
  forall k, In k (keys m') -> In k (keys acc) \/ In (GStr k) (map fst m).
Proof.
  revert acc. induction m as [|(k, v) m IH]; intros acc H x HX; cbn [map_to_string_keys] in H.
  - injection H; intros <-. auto.
  - apply rbind_ok in H. destruct H as (s & HS & H). destruct k; try discriminate. cbn [as_string] in HS. injection HS; intros ->.
    destruct (IH _ H _ HX) as [HI|HI]; [|right; right; auto].
    clear -HI. assert (HU : x = s \/ In x (keys acc)).
    { induction acc as [|(y, b) acc IH]; simpl in *; [destruct HI; auto|]. destruct (String.eqb s y) eqn:E; simpl in *; [apply String.eqb_eq in E; subst; tauto|].
      destruct HI as [HI|HI]; [auto|]. destruct (IH HI); auto. }
    destruct HU as [->|HU]; auto. right. left. auto.
Qed.

Lemma interpret_agree v : go_value v -> single v -> forall p, (In p ["ANY"; "ALL"] -> one_inner v) ->
  forall t t' n u, interpret L ord v p t = (Ok n, u) -> exists u', interpret L ord' v p t' = (Ok n, u').
Proof.
  induction v as [| | | | |l IH|m IH|m IH] using iface_ind'; intros HG HS p HP t t' n u H; cbn [interpret] in *; try discriminate.
  - inversion HG as [| | | | |? HL| |]; subst. inversion HS as [| | | | |? HM| |]; subst.
    assert (HF : Forall2 (fun a b : P (node L) => forall t t' n u, a t = (Ok n, u) -> exists u', b t' = (Ok n, u'))
      (map (fun x => interpret L ord x "") l) (map (fun x => interpret L ord' x "") l)).
    { clear -IH HL HM. induction IH as [|x l Hx IH IHl]; simpl; constructor; inversion HL; inversion HM; subst; auto.
      intros t t' n u H. eapply Hx; eauto. intros [E|[E|[]]]; discriminate. }
    destruct (String.eqb p "").
    + destruct l as [|x [|? ?]]; try discriminate. inversion HF; subst. eauto.
    + unfold handle_array in *. destruct (is_any p _); [|discriminate]. apply pbind_ok in H. destruct H as (ns & t1 & HN & H).
      apply pret_ok in H. destruct H as [H _]. destruct (pseq_agree _ _ HF _ t' _ _ HN) as [u' HN']. exists u'. unfold pbind, pret. rewrite HN', H. auto.
  - inversion HG as [| | | | | |? HN HL|]; subst. inversion HS as [| | | | | |? HM HK|]; subst.
    eapply handle_agree; [| | |exact H].
    + clear -IH HL HM HK. induction IH as [|(k, x) m Hk IH IHm]; simpl; constructor.
      * split; auto. split; auto. cbn [fst snd]. inversion HL; inversion HM; subst. intros t t' n u HE. eapply Hk; eauto.
        intro HI. eapply HK; [left; reflexivity|auto].
      * inversion HL; inversion HM; subst. apply IHm; auto. intros. eapply HK; eauto. right; eauto.
    + unfold keys. rewrite map_map. exact HN.
    + intros HI k k' K1 K2. destruct (HP HI) as [H1 _]. unfold keys in K1, K2. rewrite map_map in K1, K2. eapply H1; eauto.
  - inversion HG as [| | | | | | |? HN HL]; subst. inversion HS as [| | | | | | |? HM HK]; subst.
    apply pbind_ok in H. destruct H as (m1 & t1 & HM1 & H). apply pret_ok in HM1. destruct HM1 as [HM1 ->].
    destruct (string_kids_agree m (interpret L ord) (interpret L ord') [] [] m1) as (m2 & HM2 & HF); auto.
    { intros k x HI t1 t2 n1 u1 HE. rewrite Forall_forall in IH, HL, HM. eapply (IH _ HI (HL _ HI) (HM _ HI)); [|exact HE]. intro HP2. eapply HK; eauto. }
    unfold pbind, pret. rewrite HM2. eapply handle_agree; [exact HF| | |exact H].
    + eapply string_keys_distinct; eauto. constructor.
    + intros HI k k' K1 K2. destruct (HP HI) as [_ H1].
      pose proof (string_keys_from _ _ _ HM1 _ K1) as [[]|S1]. pose proof (string_keys_from _ _ _ HM1 _ K2) as [[]|S2].
      rewrite map_map in S1, S2. eapply H1; eauto.
Qed.
End WithLib.

Theorem loading_order L ord ord' v t t' n : fair ord -> fair ord' -> go_value v -> single v ->
  fst (parse_conditions_tree L ord v t) = Ok n -> fst (parse_conditions_tree L ord' v t') = Ok n.
Proof.
  intros HF HF' HG HS H. destruct (parse_conditions_tree L ord v t) as [r u] eqn:E. simpl in H. subst r.
  eapply interpret_agree in E; eauto.
  - destruct E as [u' E]. unfold parse_conditions_tree. rewrite E. auto.
  - intros [E1|[E1|[]]]; discriminate.
Qed.
