(** The loader reads exactly the trees of the grammar: ANY, ALL and whole trees. *)
From Coq Require Import List String Ascii Bool Arith ZArith Permutation Lia.
From Verif Require Import Base GoStr GoStr_facts GoFloat Types Json StrUtils Validate Prepare Parse Spec_Tree Match_proofs
  Spec_Leaf Leaf_proofs Spec_Validate Validate_proofs Spec_Load Lifecycle Spec_Lifecycle Lifecycle_proofs Load_proofs Load_order
  Spec_Names Spec_Grammar Grammar_proofs.
Import ListNotations.
Open Scope string_scope.
Local Arguments String.prefix : simpl never.

Lemma assoc_in_iff {A} k (x : A) l : NoDup (map fst l) -> assoc k l = Some x <-> In (k, x) l.
Proof.
  intro HN. split; [apply assoc_in|]. induction l as [|(k', y) l IH]; simpl; [tauto|]. inversion HN as [|? ? N1 N2]; subst.
  intros [H|H]; [injection H as -> ->; rewrite String.eqb_refl; auto|].
  destruct (String.eqb k k') eqn:E; [|auto]. apply String.eqb_eq in E. subst. exfalso. apply N1. apply in_map_iff. exists (k', x). auto.
Qed.

Section WithLib.
Variable L : Lib.

(** ** Return values of ANY and ALL *)
Lemma ret_map_iff v m : go_value v -> ret_map v = Ok m <-> entries_of v m.
Proof.
  intro HG. unfold ret_map. destruct v as [| | | | |l|o|o]; try (split; [discriminate|intros [H|H]; discriminate]).
  - split; [intro H; injection H as ->; left; auto|]. intros [H|H]; [injection H as ->; auto|discriminate].
  - split.
    + intro H. destruct (string_keys_only _ _ _ H) as [es ->]. right. f_equal. f_equal.
      rewrite string_keys_new in H; [injection H as ->; auto|]. exact (map_entries_distinct _ _ (or_intror eq_refl) HG).
    + intros [H|H]; [discriminate|]. injection H as ->. apply string_keys_new. exact (map_entries_distinct _ _ (or_intror eq_refl) HG).
Qed.
Lemma ret_value_iff v r : go_value v -> ret_value L v no_ret r <->
  (entries_of v [] /\ r = no_ret) \/
  (exists ts, entries_of v (map (fun e => (fst e, GStr (snd e))) ts) /\ ts <> [] /\ Forall (fun e => starts "jsonpath:$RELATIVE" (snd e)) ts /\
     returns_stored L (fun s => replace_first s "jsonpath:$RELATIVE" "$") (query_for L) ts r).
Proof.
  intro HG. unfold ret_value. split.
  - intros (m & HM & HC & HR). apply ret_map_iff in HM; auto. destruct m as [|e m]; [left; auto|]. right.
    destruct HR as (ts & HS & ->). apply strings_of in HS. exists ts. rewrite HS in HM. split; auto.
    split; [intros ->; discriminate|]. split.
    + rewrite HS in HC. pose proof (map_entries_distinct _ _ HM HG) as HN. apply Forall_forall. intros (k, s) HI.
      assert (HI' : In (k, GStr s) (map (fun e => (fst e, GStr (snd e))) ts)) by (apply in_map_iff; exists (k, s); auto).
      destruct (HC k) as (s' & H1 & H2); [apply in_map_iff; exists (k, GStr s); auto|].
      apply (assoc_in_iff k (GStr s)) in HI'; auto. rewrite HI' in H1. injection H1 as ->. exact H2.
    + apply (returns_stored_iff L _ _ (fun p => match prepare_query L p with Ok q => q | _ => None end)); [apply query_for_iff|reflexivity].
  - intros [[HE ->]|(ts & HE & HN & HF & HR)].
    + exists []. split; [apply ret_map_iff; auto|]. split; [intros k []|auto].
    + exists (map (fun e => (fst e, GStr (snd e))) ts). split; [apply ret_map_iff; auto|]. split.
      * intros k HK. apply keys_assoc in HK. destruct HK as [x HX]. rewrite HX. apply assoc_in in HX. apply in_map_iff in HX.
        destruct HX as ((k', s) & E & HI). injection E as -> <-. exists s. split; auto. rewrite Forall_forall in HF. exact (HF _ HI).
      * destruct ts as [|e ts]; [congruence|]. cbn [map]. exists (e :: ts). split; [apply strings_of; auto|].
        apply (returns_stored_iff L _ _ (fun p => match prepare_query L p with Ok q => q | _ => None end)) in HR; [exact HR|apply query_for_iff].
Qed.

(** ** Chains of effects *)
Section Chain.
Variable R : string -> node L -> Prop.
Variable es : list (string * iface).
Notation chain := (chain L R es).
Notation effect := (effect L R es).
Notation Par := "parentJsonpathAttribute".
Notation Ret := "returnValueJsonpath".

Lemma chain_shape ks s0 s : chain ks s0 s -> NoDup ks ->
  (In Par ks -> exists p, assoc Par es = Some (GStr p) /\ valid_parent p = true /\ a_parent (fst s) = replace_all p "jsonpath:" "" /\ a_orig (fst s) = p) /\
  (~ In Par ks -> a_parent (fst s) = a_parent (fst s0) /\ a_orig (fst s) = a_orig (fst s0)) /\
  (In Ret ks -> exists x, assoc Ret es = Some x /\ ret_value L x (a_ret (fst s0)) (a_ret (fst s))) /\
  (~ In Ret ks -> a_ret (fst s) = a_ret (fst s0)) /\
  a_parents (fst s) = a_parents (fst s0) /\ a_prep (fst s) = a_prep (fst s0) /\
  (forall k, In k ks -> inner_key k -> In k (keys es) /\ exists n, R k n) /\
  ((exists k, In k ks /\ inner_key k /\ R k (snd s)) \/ ((forall k, In k ks -> ~ inner_key k) /\ snd s = snd s0)).
Proof.
  induction 1 as [s|k ks s1 s2 s3 HE HC IH]; intro HN.
  - split; [intros []|]. split; [auto|]. split; [intros []|]. split; [auto|]. split; [auto|]. split; [auto|]. split; [intros k []|]. right. split; auto.
  - inversion HN as [|? ? N1 N2]; subst. destruct (IH N2) as (I1 & I2 & I3 & I4 & I5 & I6 & I7 & I8). clear IH HC HN.
    inversion HE as [a inner p E1 E2|a inner x r E1 E2|k' a inner n HI HK HR]; subst; cbn [fst snd a_parent a_orig a_ret a_parents a_prep] in *.
    + destruct (I2 N1) as [P1 P2].
      split; [intros _; exists p; auto|]. split; [intros H; exfalso; apply H; left; auto|].
      split; [intros [H|H]; [discriminate|auto]|]. split; [intro H; apply I4; intro H'; apply H; right; auto|]. split; auto. split; auto.
      split; [intros k [<-|H] HI; [destruct HI as [HI _]; congruence|auto]|].
      destruct I8 as [(k & K1 & K2 & K3)|[K1 K2]]; [left; exists k; split; [right; auto|auto]|]. right. split; auto.
      intros k [<-|H]; [intros [HI _]; congruence|auto].
    + split; [intros [H|H]; [discriminate|auto]|]. split; [intro H; apply I2; intro H'; apply H; right; auto|].
      split; [intros _; exists x; split; auto; rewrite (I4 N1); auto|]. split; [intro H; exfalso; apply H; left; auto|]. split; auto. split; auto.
      split; [intros k [<-|H] HI; [destruct HI as [_ HI]; congruence|auto]|].
      destruct I8 as [(k & K1 & K2 & K3)|[K1 K2]]; [left; exists k; split; [right; auto|auto]|]. right. split; auto.
      intros k [<-|H]; [intros [_ HI]; congruence|auto].
    + split; [intros [H|H]; [destruct HI; congruence|auto]|]. split; [intro H; apply I2; intro H'; apply H; right; auto|].
      split; [intros [H|H]; [destruct HI; congruence|auto]|]. split; [intro H; apply I4; intro H'; apply H; right; auto|]. split; auto. split; auto.
      split; [intros k0 [<-|H] HI'; [eauto|auto]|].
      left. destruct I8 as [(k0 & K1 & K2 & K3)|[K1 K2]]; [exists k0; split; [right; auto|auto]|]. exists k. rewrite K2. split; [left; auto|auto].
Qed.

Lemma chain_app ks ks' s0 s1 s2 : chain ks s0 s1 -> chain ks' s1 s2 -> chain (ks ++ ks')%list s0 s2.
Proof. induction 1 as [s|k ks s1 s3 s4 HE HC IH]; intro H; simpl; [auto|]. econstructor; eauto. Qed.

(** any order of the keys gives some chain *)
Variables (p : string) (r : retpart L).
Hypothesis HPar : assoc Par es = Some (GStr p).
Hypothesis HValid : valid_parent p = true.
Definition stored_aa (ks : list string) (a : aanode L) : aanode L :=
  let a := if in_dec string_dec Par ks then mkAA (replace_all p "jsonpath:" "") (a_parents a) p (a_ret a) (a_prep a) else a in
  if in_dec string_dec Ret ks then mkAA (a_parent a) (a_parents a) (a_orig a) r (a_prep a) else a.
Lemma chain_build ks : NoDup ks -> incl ks (keys es) ->
  (forall x, assoc Ret es = Some x -> ret_value L x no_ret r) ->
  (forall k, In k ks -> inner_key k -> exists n, R k n) ->
  forall a i, (In Ret ks -> a_ret a = no_ret) -> exists i', chain ks (a, i) (stored_aa ks a, i').
Proof.
  induction ks as [|k ks IH]; intros HN HI HRet HIn a i HA.
  - exists i. constructor.
  - inversion HN as [|? ? N1 N2]; subst. assert (HI' : incl ks (keys es)) by (intros x HX; apply HI; right; auto).
    assert (HIn' : forall k, In k ks -> inner_key k -> exists n, R k n) by (intros; apply HIn; auto; right; auto).
    destruct (string_dec k Par) as [->|NP]; [|destruct (string_dec k Ret) as [->|NR]].
    + set (a1 := mkAA (replace_all p "jsonpath:" "") (a_parents a) p (a_ret a) (a_prep a)).
      destruct (IH N2 HI' HRet HIn' a1 i) as [i' HC]; [intro H; apply HA; right; auto|]. exists i'.
      replace (stored_aa (Par :: ks) a) with (stored_aa ks a1).
      * econstructor; [|exact HC]. apply ef_parent; auto.
      * unfold stored_aa. destruct (in_dec string_dec Par ks) as [|_]; [tauto|]. destruct (in_dec string_dec Par (Par :: ks)) as [_|H]; [|exfalso; apply H; left; auto].
        destruct (in_dec string_dec Ret ks) as [H1|H1], (in_dec string_dec Ret (Par :: ks)) as [H2|H2]; auto.
        -- exfalso. apply H2. right; auto.
        -- exfalso. destruct H2 as [H2|H2]; [discriminate|auto].
    + destruct (keys_assoc Ret es) as [x HX]; [apply HI; left; auto|].
      set (a1 := mkAA (a_parent a) (a_parents a) (a_orig a) r (a_prep a)).
      destruct (IH N2 HI' HRet HIn' a1 i) as [i' HC]; [tauto|]. exists i'.
      replace (stored_aa (Ret :: ks) a) with (stored_aa ks a1).
      * econstructor; [|exact HC]. apply ef_return with (x := x); auto. rewrite HA by (left; auto). auto.
      * unfold stored_aa. destruct (in_dec string_dec Ret ks) as [|_]; [tauto|]. destruct (in_dec string_dec Ret (Ret :: ks)) as [_|H]; [|exfalso; apply H; left; auto].
        destruct (in_dec string_dec Par ks) as [H1|H1], (in_dec string_dec Par (Ret :: ks)) as [H2|H2]; auto.
        -- exfalso. apply H2. right; auto.
        -- exfalso. destruct H2 as [H2|H2]; [discriminate|auto].
    + destruct (HIn k) as [n Hn]; [left; auto|split; auto|].
      destruct (IH N2 HI' HRet HIn' a n) as [i' HC]; [intro H; apply HA; right; auto|]. exists i'.
      replace (stored_aa (k :: ks) a) with (stored_aa ks a).
      * econstructor; [|exact HC]. apply ef_inner; auto; [split; auto|]. apply HI. left; auto.
      * unfold stored_aa. destruct (in_dec string_dec Par ks) as [H1|H1], (in_dec string_dec Par (k :: ks)) as [H2|H2];
          try (exfalso; apply H2; right; auto; fail); try (exfalso; destruct H2 as [H2|H2]; auto; fail);
          destruct (in_dec string_dec Ret ks) as [H3|H3], (in_dec string_dec Ret (k :: ks)) as [H4|H4]; auto;
          try (exfalso; apply H4; right; auto; fail); try (exfalso; destruct H4 as [H4|H4]; auto; fail).
Qed.
(** the chosen inner key last *)
Lemma chain_last k inner ks : NoDup (ks ++ [k])%list -> incl (ks ++ [k])%list (keys es) -> inner_key k -> R k inner -> 
  (forall x, assoc Ret es = Some x -> ret_value L x no_ret r) ->
  (forall k, In k ks -> inner_key k -> exists n, R k n) -> 
  chain (ks ++ [k])%list (empty_aa L, NNil) (stored_aa (ks ++ [k])%list (empty_aa L), inner).
Proof.
  intros HN HI HK HR HRet HIn.
  assert (HN1 : NoDup ks) by (apply NoDup_remove_1 in HN; rewrite app_nil_r in HN; auto).
  destruct (chain_build ks HN1 (fun x HX => HI x (in_or_app _ _ _ (or_introl HX))) HRet HIn (empty_aa L) NNil) as [i HC]; [reflexivity|].
  replace (stored_aa (ks ++ [k])%list (empty_aa L)) with (stored_aa ks (empty_aa L)).
  - eapply chain_app; [exact HC|]. econstructor; [|constructor]. apply ef_inner; auto. apply HI. apply in_or_app. right. left. auto.
  - destruct HK as [K1 K2]. unfold stored_aa. 
    assert (E : forall x, x <> k -> In x ks <-> In x (ks ++ [k])%list).
    { intros x HX. rewrite in_app_iff. simpl. split; [auto|]. intros [H|[H|[]]]; [auto|congruence]. }
    pose proof (E Par (fun h => K1 (eq_sym h))) as E1. pose proof (E Ret (fun h => K2 (eq_sym h))) as E2.
    destruct (in_dec string_dec Par ks), (in_dec string_dec Par (ks ++ [k])%list); try tauto; destruct (in_dec string_dec Ret ks), (in_dec string_dec Ret (ks ++ [k])%list); tauto || auto.
Qed.
End Chain.

Definition kids_of (ord : order) (es : list (string * iface)) : kids L := map (fun kv => (fst kv, (snd kv, interpret L ord (snd kv)))) es.
Lemma plain_kids ord es : plain L (kids_of ord es) = es.
Proof. unfold plain, kids_of. rewrite map_map. rewrite <- (map_id es) at 2. apply map_ext. intros (k, x). auto. Qed.
Lemma keys_kids ord es : keys (kids_of ord es) = map fst es.
Proof. unfold keys, kids_of. rewrite map_map. auto. Qed.
Lemma kids_condition ord es : is_condition_node (kids_of ord es) = is_condition_node es.
Proof. apply is_condition_perm. change (map fst (kids_of ord es)) with (keys (kids_of ord es)). rewrite keys_kids. auto. Qed.
Lemma assoc_kids ord es k : assoc k (kids_of ord es) = match assoc k es with Some x => Some (x, interpret L ord x) | None => None end.
Proof. induction es as [|(k', x) es IH]; simpl; auto. destruct (String.eqb k k'); auto. Qed.
Lemma interpret_map ord v es p t : entries_of v es -> go_value v -> interpret L ord v p t = handle_map L ord (kids_of ord es) p t.
Proof.
  intros HE HG. pose proof (map_entries_distinct _ _ HE HG) as HN. destruct HE as [->| ->]; [reflexivity|].
  cbn [interpret]. rewrite map_map. cbn [fst snd].
  assert (E : map_to_string_keys (map (fun e : string * iface => (GStr (fst e), (snd e, interpret L ord (snd e)))) es) [] = Ok (kids_of ord es)).
  { pose proof (string_keys_new (kids_of ord es)) as H. rewrite keys_kids in H. specialize (H HN). unfold kids_of in H at 1. rewrite map_map in H. exact H. }
  rewrite E. reflexivity.
Qed.
Lemma map_entries_exist ord v p t n t' : is_map v -> interpret L ord v p t = (Ok n, t') -> exists es, entries_of v es.
Proof.
  intros [[m ->]|[m ->]] H; [exists m; left; auto|]. cbn [interpret] in H. apply pbind_ok in H. destruct H as (m' & t1 & H & _). apply pret_ok in H. destruct H as [H _].
  apply string_keys_only in H. destruct H as [es H]. exists (map (fun e => (fst e, fst (snd e))) es). right. rewrite map_map. cbn [fst snd]. f_equal.
  assert (E : map (fun kv : iface * iface => (fst kv, snd kv)) m = map (fun e => (GStr (fst e), fst (snd e))) es).
  { transitivity (map (fun q : iface * (iface * (string -> P (node L))) => (fst q, fst (snd q))) (map (fun kv => (fst kv, (snd kv, interpret L ord (snd kv)))) m)).
    - rewrite map_map. auto.
    - rewrite H, map_map. auto. }
  rewrite <- E. rewrite <- (map_id m) at 1. apply map_ext. intros (a, b). auto.
Qed.

Lemma valid_iff s : valid_parent s = true <-> legal_parent s.
Proof.
  split; [apply valid_parent_ok|]. unfold valid_parent. intros [H|[H|H]]; apply Load_proofs.starts_iff in H; rewrite H; rewrite ?orb_true_r; auto.
Qed.
Lemma legal_text s : legal_parent s -> replace_all s "jsonpath:" "" <> "".
Proof.
  intros [[b ->]|[[b ->]|[b ->]]]; unfold replace_all; cbn; discriminate.
Qed.

(** ** Only trees of the grammar are read *)
Section Sound.
Variable ord : order.
Hypothesis Hfair : fair ord.

Lemma quant_sound kw q v es t n t' : In (kw, q) quant_words -> entries_of v es -> go_value v -> ~ condition_keys (map fst es) ->
  (forall k x, In (k, x) es -> forall p t n t', interpret L ord x p t = (Ok n, t') -> reads L p x n) ->
  any_all_node L ord q (kids_of ord es) t = (Ok n, t') -> reads L kw v n.
Proof.
  intros HW HE HG HC IH H. pose proof (map_entries_distinct _ _ HE HG) as HN. pose proof (map_entries_values _ _ HE HG) as HV.
  unfold any_all_node in H. rewrite keys_kids in H. assert (EL : List.length (kids_of ord es) = List.length es) by apply map_length. rewrite EL in H.
  destruct ((List.length es =? 2)%nat || (List.length es =? 3)%nat) eqn:E1; cbn [negb] in H; [|discriminate].
  destruct (contains_string (map fst es) "parentJsonpathAttribute") eqn:E2; cbn [negb] in H; [|discriminate]. apply contains_in in E2.
  apply pbind_ok in H. destruct H as (ks & t1 & HK & H). unfold prange in HK. rewrite keys_kids in HK. injection HK as <- <-.
  apply pbind_ok in H. destruct H as ((a, inner) & t2 & HL & H).
  destruct (String.eqb (a_parent a) "") eqn:EA; [discriminate|]. apply pret_ok in H. destruct H as [H _]. injection H as <-.
  pose proof (Hfair t (map fst es)) as HP.
  set (R := fun k n => exists x, In (k, x) es /\ reads L k x n).
  assert (HCH : chain L R (plain L (kids_of ord es)) (ord t (map fst es)) (empty_aa L, NNil) (a, inner)).
  { eapply (loop_chain L ord R (kids_of ord es) _ Hfair); [|exact HL]. intros k x i t3 n3 t4 HA HI HX. rewrite assoc_kids in HA.
    destruct (assoc k es) as [y|] eqn:EY; [|discriminate]. injection HA as -> <-. apply assoc_in in EY. exists x. split; auto. eapply IH; eauto. }
  rewrite plain_kids in HCH. apply chain_shape in HCH; [|eapply Permutation_NoDup; [apply Permutation_sym; exact HP|auto]].
  destruct HCH as (C1 & _ & C3 & C4 & C5 & C6 & C7 & C8). cbn [fst snd empty_aa a_parents a_prep a_ret] in *.
  assert (HIN : forall k, In k (ord t (map fst es)) <-> In k (map fst es)).
  { intro k. split; intro HX; [eapply Permutation_in; eauto|eapply Permutation_in; [apply Permutation_sym|]; eauto]. }
  destruct C1 as (s & S1 & S2 & S3 & S4); [apply HIN; auto|].
  destruct a as [pa pas or re pr]. cbn in *. subst pas pr pa or.
  eapply rd_quant; eauto.
  - apply orb_true_iff in E1. rewrite !Nat.eqb_eq in E1. exact E1.
  - apply assoc_in in S1. exact S1.
  - apply valid_iff. auto.
  - destruct (in_dec string_dec "returnValueJsonpath" (map fst es)) as [HR|HR].
    + destruct C3 as (x & X1 & X2); [apply HIN; auto|]. apply assoc_in in X1. rewrite Forall_forall in HV.
      apply (ret_value_iff _ _ (HV _ X1)) in X2. destruct X2 as [[X2 ->]|(ts & X2 & X3 & X4 & X5)]; [eapply qr_empty; eauto|eapply qr_given; eauto].
    + rewrite C4; [constructor; auto|]. intro HX. apply HR. apply HIN. auto.
  - intros k w HI HK. destruct (C7 k) as (_ & n & x & X1 & X2); auto; [apply HIN; apply in_map_iff; exists (k, w); auto|].
    exists n. replace w with x; auto. apply (assoc_in_iff k x es HN) in X1. apply (assoc_in_iff k w es HN) in HI. congruence.
  - destruct C8 as [(k & K1 & K2 & x & X1 & X2)|[K1 K2]]; [left; exists k, x; auto|right]. split; auto. intros k HK. apply K1. apply HIN. auto.
Qed.

Lemma handle_sound v es p t n t' : entries_of v es -> go_value v ->
  (forall k x, In (k, x) es -> forall p t n t', interpret L ord x p t = (Ok n, t') -> reads L p x n) ->
  handle_map L ord (kids_of ord es) p t = (Ok n, t') -> reads L p v n.
Proof.
  intros HE HG IH H. pose proof (map_entries_distinct _ _ HE HG) as HN. pose proof (map_entries_values _ _ HE HG) as HV.
  unfold handle_map in H. rewrite kids_condition, plain_kids in H. destruct (is_condition_node es) eqn:EC.
  - apply pret_ok in H. destruct H as [H _]. apply (is_condition_iff es HN) in EC. apply node_condition_iff in H; auto.
    destruct H as (att & method & value & ret & c & HT & HS & [[HP ->]|(f & HP & ->)]); [eapply rd_condition; eauto|eapply rd_one_condition; eauto].
  - assert (NC : ~ condition_keys (map fst es)) by (intro HC; apply (is_condition_iff es HN) in HC; congruence).
    destruct (is_any p ["ANY"]) eqn:EA; [|destruct (is_any p ["ALL"]) eqn:EB].
    + apply is_any_in in EA. destruct EA as [<-|[]]. eapply quant_sound; eauto. simpl; auto.
    + apply is_any_in in EB. destruct EB as [<-|[]]. eapply quant_sound; eauto. simpl; auto.
    + destruct (is_any p ["NOT"]) eqn:EN.
      * apply is_any_in in EN. destruct EN as [<-|[]]. destruct es as [|(k, x) [|? ?]]; try discriminate. cbn [kids_of map fst snd] in H.
        apply pbind_ok in H. destruct H as (m & t1 & H & H'). apply pret_ok in H'. destruct H' as [H' _]. injection H' as <-.
        eapply rd_not; eauto. eapply IH; eauto. left; auto.
      * destruct (is_any p ["OR"; "AND"; ""; "condition"; "conditions"; "conditionsTree"]) eqn:EP; [|discriminate]. apply is_any_in in EP.
        destruct es as [|(k, x) [|? ?]]; try discriminate. cbn [kids_of map fst snd] in H. eapply rd_keyword; eauto; [simpl in EP |- *; tauto|].
        eapply IH; eauto. left; auto.
Qed.

Theorem read_sound v : go_value v -> forall p t n t', interpret L ord v p t = (Ok n, t') -> reads L p v n.
Proof.
  induction v as [| | | | |l IH|m IH|m IH] using iface_ind'; intros HG p t n t' H; try discriminate.
  - inversion HG as [| | | | |? HL| |]; subst. cbn [interpret] in H. destruct (String.eqb p "") eqn:EP.
    + apply String.eqb_eq in EP. destruct l as [|x [|? ?]]; try discriminate. inversion IH as [|? ? HX _]; subst. inversion HL; subst.
      apply rd_single; auto. eapply HX; eauto.
    + unfold handle_array in H. destruct (is_any p ["AND"; "OR"; "NOT"]) eqn:EA; [|discriminate]. apply is_any_in in EA.
      apply pbind_ok in H. destruct H as (ns & t1 & HN & H). apply pret_ok in H. destruct H as [H _].
      assert (HF : Forall2 (reads L "") l ns).
      { apply pseq_forall2 in HN. clear -IH HL HN. revert ns HN. induction IH as [|x l HX IH IHl]; intros ns HN; cbn [map] in HN; inversion HN as [|? n ? ns' (u & u' & E) HN']; subst; constructor.
        - inversion HL; subst. eapply HX; eauto.
        - inversion HL; subst. auto. }
      unfold node_by_parent in H. destruct EA as [<-|[<-|[<-|[]]]]; cbn in H; injection H as <-.
      * apply (rd_list L "AND" l ns NAnd); simpl; auto.
      * apply (rd_list L "OR" l ns NOr); simpl; auto.
      * apply (rd_list L "NOT" l ns (fun ns => NNot (last ns NNil))); simpl; auto.
  - assert (HE : entries_of (GMapS m) m) by (left; auto). rewrite (interpret_map _ _ m) in H; auto. eapply handle_sound; eauto.
    pose proof (map_entries_values _ _ HE HG) as HV. rewrite Forall_forall in IH, HV. intros k x HI. apply (IH _ HI). exact (HV _ HI).
  - destruct (map_entries_exist ord _ p t n t' (or_intror (ex_intro _ m eq_refl)) H) as [es HE]. rewrite (interpret_map _ _ es) in H; auto. eapply handle_sound; eauto.
    pose proof (map_entries_values _ _ HE HG) as HV. destruct HE as [HE|HE]; [discriminate|]. injection HE as ->. rewrite Forall_map in IH. rewrite Forall_forall in IH, HV.
    intros k x HI. apply (IH _ HI). exact (HV _ HI).
Qed.
End Sound.

(** ** Every tree of the grammar is read, in some order of visiting maps *)
Definition can {A} (x : order -> P A) (a : A) (t : nat) : Prop :=
  exists o t', (t <= t')%nat /\ fair o /\ forall ord, fair ord -> (forall i, (t <= i < t')%nat -> ord i = o i) -> x ord t = (Ok a, t').
Definition some_order : order := fun _ ks => ks.
Lemma some_fair : fair some_order.
Proof. intros n ks. apply Permutation_refl. Qed.
Lemma can_ret {A} (a : A) (r : order -> res A) t : (forall o, fair o -> r o = Ok a) -> can (fun o => pret (r o)) a t.
Proof. intro H. exists some_order, t. split; auto. split; [exact some_fair|]. intros ord HF _. unfold pret. rewrite H; auto. Qed.
Lemma can_bind {A B} (x : order -> P A) (f : order -> A -> P B) a b t : can x a t -> (forall t1, can (fun o => f o a) b t1) ->
  can (fun o => pbind (x o) (f o)) b t.
Proof.
  intros (o1 & t1 & L1 & F1 & H1) H. destruct (H t1) as (o2 & t2 & L2 & F2 & H2).
  exists (fun i => if (i <? t1)%nat then o1 i else o2 i), t2. split; [lia|]. split.
  - intros i ks. destruct (i <? t1)%nat; auto.
  - intros ord HF HO. unfold pbind. rewrite (H1 ord HF).
    + apply H2; auto. intros i Hi. rewrite HO by lia. replace (i <? t1)%nat with false by (symmetry; apply Nat.ltb_ge; lia). auto.
    + intros i Hi. rewrite HO by lia. replace (i <? t1)%nat with true by (symmetry; apply Nat.ltb_lt; lia). auto.
Qed.
Lemma can_eq {A} (x y : order -> P A) a t : (forall o, fair o -> x o t = y o t) -> can y a t -> can x a t.
Proof. intros HE (o & t' & H1 & H2 & H3). exists o, t'. split; auto. split; auto. intros ord HF HO. rewrite HE; auto. Qed.
Lemma can_range {A} (m : order -> list (string * A)) ks ks' t : (forall o, keys (m o) = ks) -> Permutation ks' ks -> can (fun o => prange o (m o)) ks' t.
Proof.
  intros HK HP. exists (fun _ l => if list_eq_dec string_dec l ks then ks' else l), (S t). split; [lia|]. split.
  - intros i l. destruct (list_eq_dec string_dec l ks) as [->|_]; auto.
  - intros ord HF HO. unfold prange. rewrite HO by lia. rewrite HK. destruct (list_eq_dec string_dec ks ks) as [_|H]; [auto|congruence].
Qed.
Lemma return_tick ord v old r t : fair ord -> ret_value L v old r -> aa_return L ord v old t = (Ok r, S t).
Proof.
  intros HF H. apply (return_iff L ord v old r t HF) in H. destruct H as [t' H]. rewrite H. f_equal.
  unfold aa_return in H. apply pbind_ok in H. destruct H as (m & t1 & H1 & H). apply pret_ok in H1. destruct H1 as [_ ->].
  apply pbind_ok in H. destruct H as (ks & t2 & H1 & H). unfold prange in H1. injection H1 as _ <-.
  apply pbind_ok in H. destruct H as (u & t3 & H1 & H). apply pret_ok in H1. destruct H1 as [_ ->]. apply pret_ok in H. tauto.
Qed.
Lemma can_loop (R : string -> node L -> Prop) es ks s0 s :
  (forall k x n, assoc k es = Some x -> inner_key k -> R k n -> forall t, can (fun o => interpret L o x k) n t) ->
  chain L R es ks s0 s -> forall t, can (fun o => aa_loop L o (kids_of o es) ks (fst s0) (snd s0)) s t.
Proof.
  intros HR HC. induction HC as [s|k ks s1 s2 s3 HE HC IH]; intro t.
  - apply (can_ret s (fun _ => Ok (fst s, snd s))). destruct s; auto.
  - inversion HE as [a inner p E1 E2|a inner x r E1 E2|k' a inner n HI HK HN]; subst; cbn [fst snd] in *.
    + eapply can_eq; [|exact (IH t)]. intros o HF. cbn [aa_loop]. rewrite assoc_kids, E1, String.eqb_refl. unfold pbind, pret. cbn [as_string]. rewrite E2. auto.
    + eapply can_eq; [|eapply (can_bind (fun o => aa_return L o x (a_ret a)) (fun o r0 => aa_loop L o (kids_of o es) ks (mkAA (a_parent a) (a_parents a) (a_orig a) r0 (a_prep a)) inner) r)].
      * intros o HF. cbn [aa_loop]. rewrite assoc_kids, E1. change (String.eqb "returnValueJsonpath" "parentJsonpathAttribute") with false. rewrite String.eqb_refl. reflexivity.
      * exists some_order, (S t). split; [lia|]. split; [exact some_fair|]. intros ord HF _. apply return_tick; auto.
      * exact IH.
    + destruct (keys_assoc k es HK) as [x HX]. eapply can_eq; [|eapply (can_bind (fun o => interpret L o x k) (fun o n0 => aa_loop L o (kids_of o es) ks a n0) n)].
      * intros o HF. cbn [aa_loop]. rewrite assoc_kids, HX. pose proof HI as [I1 I2]. apply String.eqb_neq in I1, I2. rewrite I1, I2. reflexivity.
      * eapply HR; eauto.
      * exact IH.
Qed.

Lemma quant_can kw q es s r inner v : entries_of v es -> go_value v ->
  (forall k x, In (k, x) es -> forall p n, reads L p x n -> forall t, can (fun o => interpret L o x p) n t) ->
  In (kw, q) quant_words -> (List.length es = 2 \/ List.length es = 3)%nat ->
  In ("parentJsonpathAttribute", GStr s) es -> legal_parent s -> quant_returns L es r ->
  (forall k w, In (k, w) es -> inner_key k -> exists n, reads L k w n) ->
  ((exists k w, In (k, w) es /\ inner_key k /\ reads L k w inner) \/ (inner = NNil /\ forall k, In k (map fst es) -> ~ inner_key k)) ->
  forall t, can (fun o => any_all_node L o q (kids_of o es)) (NQuant q (mkAA (replace_all s "jsonpath:" "") [] s r []) inner) t.
Proof.
  intros HE HG IH HW HLen HPar HLeg HRet HAll HCho t.
  pose proof (map_entries_distinct _ _ HE HG) as HN. pose proof (map_entries_values _ _ HE HG) as HV.
  set (R := fun k n => exists x, In (k, x) es /\ reads L k x n).
  assert (HP : assoc "parentJsonpathAttribute" es = Some (GStr s)) by (apply assoc_in_iff; auto).
  assert (HVal : valid_parent s = true) by (apply valid_iff; auto).
  assert (HR : forall x, assoc "returnValueJsonpath" es = Some x -> ret_value L x no_ret r).
  { intros x HX. apply assoc_in in HX. rewrite Forall_forall in HV. apply (ret_value_iff x r (HV _ HX)).
    assert (HU : forall y, In ("returnValueJsonpath", y) es -> y = x).
    { intros y HY. apply (assoc_in_iff _ _ es HN) in HY. apply (assoc_in_iff _ _ es HN) in HX. congruence. }
    destruct HRet as [HA|y HY HE'|y ts r HY HE' HT HF HS].
    - exfalso. apply HA. apply in_map_iff. exists ("returnValueJsonpath", x). auto.
    - left. rewrite <- (HU _ HY). auto.
    - right. exists ts. rewrite <- (HU _ HY). auto. }
  assert (HIn : forall k, In k (map fst es) -> inner_key k -> exists n, R k n).
  { intros k HK HI. apply in_map_iff in HK. destruct HK as ((k', x) & <- & HX). destruct (HAll _ _ HX HI) as [n Hn]. exists n, x. auto. }
  assert (HST : forall ks, Permutation ks (map fst es) -> stored_aa s r ks (empty_aa L) = mkAA (replace_all s "jsonpath:" "") [] s r []).
  { intros ks HK. unfold stored_aa. cbn [empty_aa a_parents a_ret a_prep a_parent a_orig].
    destruct (in_dec string_dec "parentJsonpathAttribute" ks) as [_|H].
    2:{ exfalso. apply H. eapply Permutation_in; [apply Permutation_sym; exact HK|]. apply in_map_iff. exists ("parentJsonpathAttribute", GStr s). auto. }
    destruct (in_dec string_dec "returnValueJsonpath" ks) as [_|H]; [auto|].
    f_equal. destruct HRet as [HA|y HY HE'|y ts r HY HE' HT HF HS]; auto.
    exfalso. apply H. eapply Permutation_in; [apply Permutation_sym; exact HK|]. apply in_map_iff. exists ("returnValueJsonpath", y). auto. }
  assert (HCH : exists ks, Permutation ks (map fst es) /\ chain L R es ks (empty_aa L, NNil) (mkAA (replace_all s "jsonpath:" "") [] s r [], inner)).
  { destruct HCho as [(k & w & HK1 & HK2 & HK3)|[-> HNone]].
    - assert (HKI : In k (map fst es)) by (apply in_map_iff; exists (k, w); auto). apply in_split in HKI. destruct HKI as (l1 & l2 & EL).
      set (ks := (l1 ++ l2)%list).
      assert (HPm : Permutation (ks ++ [k])%list (map fst es)).
      { rewrite EL. unfold ks. eapply Permutation_trans; [apply Permutation_sym; apply Permutation_cons_append|]. apply Permutation_middle. }
      exists (ks ++ [k])%list. split; auto. rewrite <- (HST _ HPm). apply chain_last; auto.
      + eapply Permutation_NoDup; [apply Permutation_sym; exact HPm|auto].
      + intros x HX. eapply Permutation_in; [exact HPm|auto].
      + exists w. auto.
      + intros k' HK' HI'. apply HIn; auto. eapply Permutation_in; [exact HPm|]. apply in_or_app. auto.
    - exists (map fst es). split; [auto|].
      destruct (chain_build R es s r HP HVal (map fst es) HN (fun x HX => HX) HR HIn (empty_aa L) NNil) as [i HC]; [reflexivity|].
      rewrite (HST _ (Permutation_refl _)) in HC. pose proof (chain_shape R es _ _ _ HC HN) as (_ & _ & _ & _ & _ & _ & _ & C8). cbn [fst snd] in C8.
      destruct C8 as [(k & K1 & K2 & _)|[_ ->]]; [exfalso; exact (HNone _ K1 K2)|exact HC]. }
  destruct HCH as (ks & HPm & HC).
  eapply (can_eq _ (fun o => pbind (prange o (kids_of o es)) (fun ks => pbind (aa_loop L o (kids_of o es) ks (empty_aa L) NNil)
    (fun '(a, inner) => if String.eqb (a_parent a) "" then pret Err else pret (Ok (NQuant q a inner)))))).
  { intros o HF. unfold any_all_node. rewrite keys_kids. assert (EL : List.length (kids_of o es) = List.length es) by apply map_length. rewrite EL.
    assert (E1 : (List.length es =? 2)%nat || (List.length es =? 3)%nat = true) by (rewrite orb_true_iff, !Nat.eqb_eq; auto). rewrite E1. cbn [negb].
    assert (E2 : contains_string (map fst es) "parentJsonpathAttribute" = true) by (apply contains_in; apply in_map_iff; exists ("parentJsonpathAttribute", GStr s); auto).
    rewrite E2. reflexivity. }
  apply (can_bind (fun o => prange o (kids_of o es)) _ ks).
  { apply (can_range (fun o => kids_of o es) (map fst es)); auto. intro o. apply keys_kids. }
  intro t1. apply (can_bind (fun o => aa_loop L o (kids_of o es) ks (empty_aa L) NNil) _ (mkAA (replace_all s "jsonpath:" "") [] s r [], inner)).
  { apply (can_loop R es ks (empty_aa L, NNil)); auto. intros k x n HX HI (y & HY & HRd). apply assoc_in in HX.
    assert (y = x) as -> by (apply (assoc_in_iff _ _ es HN) in HY; apply (assoc_in_iff _ _ es HN) in HX; congruence). intro t2. apply (IH k x HX); auto. }
  intro t2. cbn [a_parent]. pose proof (legal_text s HLeg) as HT. apply String.eqb_neq in HT. rewrite HT. apply (can_ret _ (fun _ => Ok (NQuant q (mkAA (replace_all s "jsonpath:" "") [] s r []) inner))). auto.
Qed.

Lemma reads_can_array l : Forall (fun x => go_value x -> forall p n, reads L p x n -> forall t, can (fun o => interpret L o x p) n t) l -> Forall go_value l ->
  forall ns, Forall2 (reads L "") l ns -> forall t, can (fun o => pseq (map (fun x => interpret L o x "") l)) ns t.
Proof.
  intros IH HG ns HF. induction HF as [|x n l ns HR HF IHF]; intro t; inversion IH; inversion HG; subst; cbn [map pseq].
  - apply (can_ret [] (fun _ => Ok [])). auto.
  - apply (can_bind (fun o => interpret L o x "") (fun o a => pbind (pseq (map (fun x => interpret L o x "") l)) (fun al => pret (Ok (a :: al)))) n); [auto|].
    intro t1. apply (can_bind (fun o => pseq (map (fun x => interpret L o x "") l)) (fun o al => pret (Ok (n :: al))) ns); [auto|].
    intro t2. apply (can_ret (n :: ns) (fun _ => Ok (n :: ns))). auto.
Qed.

Lemma condition_can v es p n : entries_of v es -> go_value v -> condition_keys (map fst es) -> node_condition L es p = Ok n ->
  forall t, can (fun o => interpret L o v p) n t.
Proof.
  intros HE HG HC H t. pose proof (map_entries_distinct _ _ HE HG) as HN. apply (is_condition_iff es HN) in HC.
  eapply can_eq; [|apply (can_ret n (fun _ => Ok n)); auto]. intros o HF. rewrite (interpret_map o v es); auto. unfold handle_map. rewrite kids_condition, plain_kids, HC. rewrite H. auto.
Qed.
Lemma single_not_condition k (w : iface) : is_condition_node [(k, w)] = false.
Proof. reflexivity. Qed.

Lemma reads_can_map v es : entries_of v es -> go_value v ->
  (forall k x, In (k, x) es -> forall p n, reads L p x n -> forall t, can (fun o => interpret L o x p) n t) ->
  forall p n, reads L p v n -> forall t, can (fun o => interpret L o v p) n t.
Proof.
  intros HE HG IH p n H t. pose proof (map_entries_distinct _ _ HE HG) as HN. pose proof (map_entries_values _ _ HE HG) as HV.
  assert (HU : forall es', entries_of v es' -> es' = es).
  { intros es' HE'. destruct HE as [->| ->], HE' as [H'|H']; try discriminate; [injection H' as ->; auto|]. injection H' as H'.
    assert (HM : map (fun q : iface * iface => (match fst q with GStr s => s | _ => "" end, snd q)) (map (fun e : string * iface => (GStr (fst e), snd e)) es') =
                 map (fun q : iface * iface => (match fst q with GStr s => s | _ => "" end, snd q)) (map (fun e : string * iface => (GStr (fst e), snd e)) es)) by (rewrite H'; auto).
    rewrite !map_map in HM. cbn [fst snd] in HM.
    assert (HI : forall l : list (string * iface), map (fun e => (fst e, snd e)) l = l) by (intro l; rewrite <- (map_id l) at 2; apply map_ext; intros (x, y); auto).
    rewrite !HI in HM. auto. }
  inversion H as [v' es' att method value ret c HE' HC HT HS HP|v' es' att method value ret c f HE' HC HT HS HP|v' k w n' HE' HP HR|v' k w n' HE' HP HR|x n' HP HR|l ns f HP HF
    |v' es' q s r inner HP HE' HC HL HPar HLeg HRet HAll HCho]; subst; try (apply HU in HE'; subst).
  - eapply condition_can; eauto. apply node_condition_iff; auto. exists (att), method, value, ret, c. auto.
  - eapply condition_can; eauto. apply node_condition_iff; auto. exists (att), method, value, ret, c. split; auto. split; auto. right. eauto.
  - eapply can_eq; [|exact (IH k w (or_introl eq_refl) k n HR t)]. intros o HF. rewrite (interpret_map o v [(k, w)]); auto. unfold handle_map. rewrite kids_condition, single_not_condition.
    simpl in HP. destruct HP as [<-|[<-|[<-|[<-|[<-|[<-|[]]]]]]]; reflexivity.
  - eapply can_eq; [|apply (can_bind (fun o => interpret L o w k) (fun o m => pret (Ok (NNot m))) n')].
    + intros o HF. rewrite (interpret_map o v [(k, w)]); [reflexivity|auto|auto].
    + apply (IH k w); auto. left; auto.
    + intro t1. apply (can_ret (NNot n') (fun _ => Ok (NNot n'))). auto.
  - exfalso. destruct HE as [HE|HE]; discriminate.
  - exfalso. destruct HE as [HE|HE]; discriminate.
  - eapply can_eq; [|eapply (quant_can p q es s r inner v); eauto]. intros o HF. rewrite (interpret_map o v es); auto. unfold handle_map. rewrite kids_condition.
    destruct (is_condition_node es) eqn:EC; [apply (is_condition_iff es HN) in EC; tauto|]. simpl in HP. destruct HP as [E|[E|[]]]; injection E as <- <-; reflexivity.
Qed.

Theorem read_can v : go_value v -> forall p n, reads L p v n -> forall t, can (fun o => interpret L o v p) n t.
Proof.
  induction v as [| | | | |l IH|m IH|m IH] using iface_ind'; intros HG p n H t.
  1-5: exfalso; inversion H; subst; match goal with HE : entries_of _ _ |- _ => destruct HE; discriminate end.
  - inversion HG as [| | | | |? HL| |]; subst.
    inversion H as [v' es' att method value ret c HE'|v' es' att method value ret c f HE'|v' k w n' HE'|v' k w n' HE'|x n' HP HR|l' ns f HP HF|v' es' q s r inner HP HE']; subst;
      try (destruct HE'; discriminate).
    + inversion IH as [|? ? HX _]; inversion HL; subst. eapply can_eq; [|apply HX; eauto]. intros; reflexivity.
    + eapply can_eq; [|apply (can_bind (fun o => pseq (map (fun x => interpret L o x "") l)) (fun o ns => pret (node_by_parent L p ns)) ns)].
      * intros o HF'. cbn [interpret]. simpl in HP. unfold handle_array. destruct HP as [E|[E|[E|[]]]]; injection E as <- _; reflexivity.
      * apply reads_can_array; auto.
      * intro t1. apply (can_ret (f ns) (fun _ => node_by_parent L p ns)). intros o _. simpl in HP. destruct HP as [E|[E|[E|[]]]]; injection E as <- <-; reflexivity.
  - apply (reads_can_map (GMapS m) m); auto; [left; auto|]. inversion HG as [| | | | | |? HN HL|]; subst. rewrite Forall_forall in IH, HL. intros k x HI. apply (IH _ HI). exact (HL _ HI).
  - assert (HE : exists es, entries_of (GMapI m) es).
    { inversion H as [v' es' att method value ret c HE'|v' es' att method value ret c f HE'|v' k w n' HE'|v' k w n' HE'|x n' HP HR|l' ns f HP HF|v' es' q s r inner HP HE']; subst; eauto. }
    destruct HE as [es HE]. apply (reads_can_map (GMapI m) es); auto. pose proof (map_entries_values _ _ HE HG) as HV. destruct HE as [HE|HE]; [discriminate|]. injection HE as ->. rewrite Forall_map in IH.
    rewrite Forall_forall in IH, HV. intros k x HI. apply (IH _ HI). exact (HV _ HI).
Qed.
End WithLib.

(** ** The loader and the grammar *)
Theorem grammar_sound L ord v t n t' : fair ord -> go_value v -> parse_conditions_tree L ord v t = (Ok n, t') -> reads L "" v n.
Proof. intros HF HG H. eapply read_sound; eauto. Qed.
Theorem grammar_some_order L v n t : go_value v -> reads L "" v n -> exists ord t', fair ord /\ parse_conditions_tree L ord v t = (Ok n, t').
Proof.
  intros HG H. destruct (read_can L v HG "" n H t) as (o & t' & _ & HF & HO). exists o, t'. split; [exact HF|]. exact (HO o HF (fun i _ => eq_refl)).
Qed.
Theorem grammar_every_order L ord v n t : fair ord -> go_value v -> single v -> reads L "" v n -> exists t', parse_conditions_tree L ord v t = (Ok n, t').
Proof.
  intros HF HG HS H. destruct (grammar_some_order L v n t HG H) as (o & t' & HO & E).
  assert (E' : fst (parse_conditions_tree L o v t) = Ok n) by (rewrite E; auto).
  apply (loading_order L o ord v t t n HO HF HG HS) in E'. destruct (parse_conditions_tree L ord v t) as [r u]. cbn [fst] in E'. subst r. eauto.
Qed.
