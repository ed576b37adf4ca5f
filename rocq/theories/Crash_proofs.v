(** Proofs about the panics of the loader. *)
From Coq Require Import List String Ascii Bool Arith ZArith Permutation Lia.
From Verif Require Import Base GoStr GoStr_facts GoFloat Types Json StrUtils Validate Prepare Parse Spec_Tree Spec_Json Json_proofs Decode_proofs Match_proofs
  Spec_Leaf Leaf_proofs Spec_Validate Validate_proofs Spec_Load Lifecycle Spec_Lifecycle Lifecycle_proofs Load_proofs Load_order
  Spec_Names Spec_Grammar Grammar_proofs Grammar_tree Spec_Crash.
Import ListNotations.
Open Scope string_scope.
Local Arguments String.prefix : simpl never.

Lemma text_dec v : a_text v \/ ~ a_text v.
Proof. destruct v; try (right; intros [q E]; discriminate E). left. eexists. reflexivity. Qed.
Lemma text_panic v : as_string v = Panic <-> ~ a_text v.
Proof. destruct v; simpl; split; try discriminate; try (intros _ [q E]; discriminate E); auto. intro H. destruct H. eexists. reflexivity. Qed.
Lemma rbind_panic {A B} (x : res A) (f : A -> res B) : rbind x f = Panic <-> x = Panic \/ exists a, x = Ok a /\ f a = Panic.
Proof.
  destruct x as [a| |]; simpl; split; intro H; try discriminate; eauto.
  - destruct H as [H|(b & E & H)]; [discriminate|]. injection E as ->. auto.
  - destruct H as [H|(b & E & H)]; discriminate.
Qed.
Lemma pbind_panic {A B} (x : P A) (f : A -> P B) t : fst (pbind x f t) = Panic <-> fst (x t) = Panic \/ exists a t1, x t = (Ok a, t1) /\ fst (f a t1) = Panic.
Proof.
  unfold pbind. destruct (x t) as [[a| |] t1]; simpl; split; intro H; try discriminate; eauto.
  - destruct H as [H|(b & t2 & E & H)]; [discriminate|]. injection E as -> ->. auto.
  - destruct H as [H|(b & t2 & E & H)]; discriminate.
Qed.

Lemma keys_panic {A} (m : list (iface * A)) : forall acc, map_to_string_keys m acc = Panic <-> exists k x, In (k, x) m /\ ~ a_text k.
Proof.
  induction m as [|(k, x) m IH]; intro acc; cbn [map_to_string_keys].
  - split; [discriminate|intros (? & ? & [] & _)].
  - rewrite rbind_panic, text_panic. split.
    + intros [H|(s & E & H)]; [exists k, x; simpl; auto|]. apply IH in H. destruct H as (k' & x' & H1 & H2). exists k', x'. simpl. auto.
    + intros (k' & x' & [E|HI] & HT); [injection E as -> ->; auto|]. destruct (text_dec k) as [[s ->]|N]; [|auto]. right. exists s. split; auto. apply IH. eauto.
Qed.
Lemma keys_result {A} (m : list (iface * A)) : forall acc, map_to_string_keys m acc <> Err.
Proof.
  induction m as [|(k, x) m IH]; intro acc; cbn [map_to_string_keys]; [discriminate|]. destruct k; simpl; try discriminate. apply IH.
Qed.
Lemma strings_panic m : strings_of_map m = Panic <-> exists k x, In (k, x) m /\ ~ a_text x.
Proof.
  unfold strings_of_map. induction m as [|(k, x) m IH]; cbn [rmapM].
  - split; [discriminate|intros (? & ? & [] & _)].
  - rewrite rbind_panic. cbn [fst snd]. split.
    + intros [H|(e & E & H)].
      * apply rbind_panic in H. destruct H as [H|(s & E & H)]; [|discriminate H]. apply text_panic in H. exists k, x. simpl. auto.
      * apply rbind_panic in H. destruct H as [H|(q & E' & H)]; [|discriminate H]. apply IH in H. destruct H as (k' & x' & H1 & H2). exists k', x'. simpl. auto.
    + intros (k' & x' & [E|HI] & HT).
      * injection E as -> ->. left. apply rbind_panic. left. apply text_panic. auto.
      * destruct (text_dec x) as [[s ->]|N]; [|left; apply rbind_panic; left; apply text_panic; auto]. right. exists (k, s). split; auto.
        apply rbind_panic. left. apply IH. eauto.
Qed.
Lemma listed_strings {A} (m : list (iface * A)) : (forall k x, In (k, x) m -> a_text k) -> exists es, m = map (fun e => (GStr (fst e), snd e)) es.
Proof.
  induction m as [|(k, x) m IH]; intro H; [exists []; auto|]. destruct (H k x (or_introl eq_refl)) as [s ->].
  destruct IH as [es ->]; [intros k' x' HI; eapply H; right; eauto|]. exists ((s, x) :: es). auto.
Qed.
Lemma entries_or_odd m : (exists es, entries_of (GMapI m) es) \/ odd_key (GMapI m).
Proof.
  destruct (map_to_string_keys m []) as [es| |] eqn:E.
  - left. destruct (string_keys_only _ _ _ E) as [es' ->]. exists es'. right. auto.
  - destruct (keys_result m [] E).
  - right. apply keys_panic in E. destruct E as (k & x & H1 & H2). exists m, k, x. auto.
Qed.
Lemma entries_not_odd v es : entries_of v es -> ~ odd_key v.
Proof.
  intros HE (m & k & x & -> & HI & HT). destruct HE as [HE|HE]; [discriminate|]. injection HE as ->. apply in_map_iff in HI.
  destruct HI as (e & E & _). injection E as <- _. apply HT. eexists. reflexivity.
Qed.
Lemma entries_unique v es es' : entries_of v es -> entries_of v es' -> es' = es.
Proof.
  intros HE HE'. destruct HE as [->| ->], HE' as [H'|H']; try discriminate; [injection H' as ->; auto|]. injection H' as H'.
  assert (HM : map (fun q : iface * iface => (match fst q with GStr s => s | _ => "" end, snd q)) (map (fun e : string * iface => (GStr (fst e), snd e)) es') =
               map (fun q : iface * iface => (match fst q with GStr s => s | _ => "" end, snd q)) (map (fun e : string * iface => (GStr (fst e), snd e)) es)) by (rewrite H'; auto).
  rewrite !map_map in HM. cbn [fst snd] in HM.
  assert (HI : forall l : list (string * iface), map (fun e => (fst e, snd e)) l = l) by (intro l; rewrite <- (map_id l) at 2; apply map_ext; intros (x, y); auto).
  rewrite !HI in HM. auto.
Qed.
(** return values *)
Lemma ret_texts_panic x : go_value x -> ret_texts x = Panic <-> odd_key x \/ odd_value x.
Proof.
  intro HG. destruct x as [| | | | |l|o|o]; cbn [ret_texts].
  1-6: split; [discriminate|]; intros [(m & k & y & E & _)|(es & k & y & [E|E] & _)]; discriminate E.
  - rewrite strings_panic. split.
    + intros (k & y & H1 & H2). right. exists o, k, y. split; [left; auto|auto].
    + intros [(m & k & y & E & _)|(es & k & y & [E|E] & H)]; try discriminate E. injection E as ->. eauto.
  - rewrite rbind_panic. split.
    + intros [H|(m & E & H)].
      * apply keys_panic in H. destruct H as (k & y & H). left. exists o, k, y. auto.
      * apply strings_panic in H. destruct H as (k & y & H). right. destruct (string_keys_only _ _ _ E) as [es ->].
        pose proof (map_entries_distinct es _ (or_intror eq_refl) HG) as HN. rewrite string_keys_new in E by exact HN. injection E as ->.
        exists m, k, y. split; [right; auto|auto].
    + intros [(m & k & y & E & H)|(es & k & y & E & H)]; [injection E as ->; left; apply keys_panic; eauto|].
      pose proof (map_entries_distinct es _ E HG) as HN. destruct E as [E|E]; [discriminate|]. injection E as ->. right. exists es. split; [apply string_keys_new; exact HN|].
      apply strings_panic. eauto.
Qed.

Section WithLib.
Variable L : Lib.
(** conditions *)
Lemma read_panic es : Forall (fun kv => go_value (snd kv)) es -> forall c, read_condition L es c = Panic <->
  exists k x, In (k, x) es /\ (((att_key k \/ method_key k) /\ ~ a_text x) \/ (return_key k /\ (odd_key x \/ odd_value x))).
Proof.
  induction 1 as [|(k, x) es HG HF IH]; intro c; cbn [read_condition].
  - split; [discriminate|intros (? & ? & [] & _)].
  - cbn [snd] in HG. fold (ret_texts x). set (r := if is_any k _ then _ else _).
    assert (HR : r = Panic <-> ((att_key k \/ method_key k) /\ ~ a_text x) \/ (return_key k /\ (odd_key x \/ odd_value x))).
    { subst r. pose proof (any_two k "attribute" "Attribute") as HA. pose proof (any_two k "method" "Method") as HM.
      pose proof (any_two k "value" "Value") as HV. pose proof (any_two k "returnValueJsonpath" "ReturnValueJsonpath") as HR.
      fold (att_key k) in HA. fold (method_key k) in HM. fold (value_key k) in HV. fold (return_key k) in HR.
      assert (D : forall a b a' b', spelled k a b -> spelled k a' b' -> a <> a' -> a <> b' -> b <> a' -> b <> b' -> False).
      { intros a b a' b' [->| ->] [E|E]; congruence. }
      destruct (is_any k ["attribute"; "Attribute"]).
      { rewrite rbind_panic, text_panic. assert (att_key k) by (apply HA; auto). split; [intros [H1|(s & _ & E)]; [auto|discriminate]|].
        intros [(_ & H1)|(H1 & _)]; auto. exfalso. eapply D; [exact H|exact H1|discriminate..]. }
      destruct (is_any k ["method"; "Method"]).
      { rewrite rbind_panic, text_panic. assert (method_key k) by (apply HM; auto). split; [intros [H1|(s & _ & E)]; [auto|discriminate]|].
        intros [(_ & H1)|(H1 & _)]; auto. exfalso. eapply D; [exact H|exact H1|discriminate..]. }
      assert (NA : ~ att_key k) by (intro Q; apply HA in Q; discriminate). assert (NM : ~ method_key k) by (intro Q; apply HM in Q; discriminate).
      destruct (is_any k ["value"; "Value"]).
      { assert (value_key k) by (apply HV; auto). split; [discriminate|]. intros [([H1|H1] & _)|(H1 & _)]; try tauto. exfalso. eapply D; [exact H|exact H1|discriminate..]. }
      destruct (is_any k ["returnValueJsonpath"; "ReturnValueJsonpath"]).
      { rewrite rbind_panic, (ret_texts_panic x HG). assert (return_key k) by (apply HR; auto). split.
        - intros [H1|(s & _ & E)]; [auto|discriminate].
        - intros [([H1|H1] & _)|(_ & H1)]; tauto. }
      split; [discriminate|]. intros [([H1|H1] & _)|(H1 & _)]; tauto. }
    assert (HE : r <> Err).
    { subst r. repeat match goal with |- context [if ?b then _ else _] => destruct b end; try discriminate; try (destruct x; discriminate).
      destruct (ret_texts x) eqn:E; simpl; try discriminate. exfalso. clear -E. destruct x; cbn [ret_texts] in E; try discriminate.
      - unfold strings_of_map in E. revert E. induction m as [|(k, y) m IH]; cbn [rmapM]; [discriminate|]. destruct y; simpl; try discriminate.
        destruct (rmapM _ m); simpl; try discriminate; auto.
      - destruct (map_to_string_keys m []) as [es| |] eqn:E1; [|destruct (keys_result m [] E1)|discriminate]. cbn [rbind] in E. clear E1.
        unfold strings_of_map in E. revert E. induction es as [|(k, y) es IH]; cbn [rmapM]; [discriminate|]. destruct y; simpl; try discriminate.
        destruct (rmapM _ es); simpl; try discriminate; auto. }
    clearbody r. rewrite rbind_panic, HR. split.
    + intros [H|(c' & _ & H)]; [exists k, x; simpl; auto|]. apply IH in H. destruct H as (k' & x' & H1 & H2). exists k', x'. simpl. auto.
    + intros (k' & x' & [E|HI] & HT); [injection E as -> ->; auto|]. destruct r as [c'| |]; [|congruence|left; apply HR; auto].
      right. exists c'. split; auto. apply IH. eauto.
Qed.
Lemma condition_panic es p : Forall (fun kv => go_value (snd kv)) es -> node_condition L es p = Panic <->
  exists k x, In (k, x) es /\ (((att_key k \/ method_key k) /\ ~ a_text x) \/ (return_key k /\ (odd_key x \/ odd_value x))).
Proof.
  intro HG. rewrite <- (read_panic es HG (mkCondnode "" "" "" None)). unfold node_condition. rewrite rbind_panic. split; [|auto].
  intros [H|(cn & E & H)]; auto. apply rbind_panic in H. destruct H as [H|(c & E' & H)]; [destruct (validate_total L _ H)|].
  destruct (is_any p [""; "condition"; "conditionsTree"]); [discriminate|]. unfold node_by_parent in H.
  repeat match type of H with context [if ?b then _ else _] => destruct b end; discriminate.
Qed.

(** return values of ANY and ALL *)
Lemma ret_map_odd v m : go_value v -> ret_map v = Ok m -> (exists k x, In (k, x) m /\ ~ a_text x) <-> odd_value v.
Proof.
  intros HG HM. apply (ret_map_iff v m HG) in HM. split.
  - intros (k & x & H). exists m, k, x. auto.
  - intros (es & k & x & HE & H). rewrite (entries_unique v m es HM HE) in H. eauto.
Qed.
Lemma ret_map_panic v : ret_map v = Panic <-> odd_key v.
Proof.
  unfold ret_map. destruct v; try (split; [discriminate|intros (m0 & k & x & E & _); discriminate E]). rewrite keys_panic. split.
  - intros (k & x & H). exists m, k, x. auto.
  - intros (m0 & k & x & E & H). injection E as ->. eauto.
Qed.
Lemma check_panic m ks : check_return_values m ks = Panic -> exists k, In k ks /\ as_string (match assoc k m with Some v => v | None => GNil end) = Panic.
Proof.
  induction ks as [|k ks IH]; cbn [check_return_values]; [discriminate|]. intro H. apply rbind_panic in H. destruct H as [H|(s & E & H)].
  - exists k. simpl. auto.
  - destruct (has_prefix s "jsonpath:$RELATIVE"); [|discriminate]. destruct (IH H) as (k' & H1 & H2). exists k'. simpl. auto.
Qed.
Lemma return_panics ord v old t : fair ord -> go_value v -> fst (aa_return L ord v old t) = Panic -> odd_key v \/ odd_value v.
Proof.
  intros HF HG H. unfold aa_return in H. fold (ret_map v) in H. apply pbind_panic in H. destruct H as [H|(m & t1 & E & H)].
  - left. apply ret_map_panic. exact H.
  - apply pret_ok in E. destruct E as [E ->]. right. apply (ret_map_odd v m HG E). apply pbind_panic in H. destruct H as [H|(ks & t2 & E2 & H)]; [discriminate H|].
    unfold prange in E2. injection E2 as <- <-. apply pbind_panic in H. destruct H as [H|(u & t3 & _ & H)].
    + cbn [fst pret] in H. apply check_panic in H. destruct H as (k & HK & HS). apply text_panic in HS.
      assert (HI : In k (keys m)) by (eapply Permutation_in; [apply HF|exact HK]). destruct (keys_assoc k m HI) as [x HX]. rewrite HX in HS.
      exists k, x. split; auto. apply assoc_in. auto.
    + cbn [fst pret] in H. apply strings_panic. destruct m; [discriminate|]. apply rbind_panic in H. destruct H as [H|(q & _ & H)]; [exact H|discriminate].
Qed.

(** ** Panics only where the specification allows them *)
Section Sound.
Variable ord : order.
Hypothesis Hfair : fair ord.

Lemma loop_panics es : NoDup (map fst es) -> Forall (fun kv => go_value (snd kv)) es -> forall ks, incl ks (map fst es) -> forall a i t,
  fst (aa_loop L ord (kids_of L ord es) ks a i t) = Panic ->
  (exists x, In ("parentJsonpathAttribute", x) es /\ ~ a_text x) \/
  (exists x, In ("returnValueJsonpath", x) es /\ (odd_key x \/ odd_value x)) \/
  (exists k x t1, In (k, x) es /\ inner_key k /\ fst (interpret L ord x k t1) = Panic).
Proof.
  intros HN HV. induction ks as [|k ks IH]; intros HI a i t H; cbn [aa_loop] in H; [discriminate|].
  destruct (keys_assoc k es (HI k (or_introl eq_refl))) as [x HX]. rewrite assoc_kids, HX in H. apply assoc_in in HX.
  assert (HI' : incl ks (map fst es)) by (intros y HY; apply HI; right; auto). pose proof (proj1 (Forall_forall _ _) HV _ HX) as HG. cbn [snd] in HG.
  destruct (String.eqb k "parentJsonpathAttribute") eqn:EP; [|destruct (String.eqb k "returnValueJsonpath") eqn:ER].
  - apply String.eqb_eq in EP. subst k. apply pbind_panic in H. destruct H as [H|(s & t1 & E & H)].
    + left. exists x. split; auto. apply text_panic. exact H.
    + destruct (valid_parent s); [|discriminate]. eapply IH; eauto.
  - apply String.eqb_eq in ER. subst k. apply pbind_panic in H. destruct H as [H|(s & t1 & E & H)]; [|eapply IH; eauto].
    right. left. exists x. split; auto. eapply return_panics; eauto.
  - apply pbind_panic in H. destruct H as [H|(s & t1 & E & H)]; [|eapply IH; eauto]. right. right. exists k, x, t. split; auto. split; auto.
    apply String.eqb_neq in EP, ER. split; auto.
Qed.
Lemma quant_panics kw q v es t : In kw ["ANY"; "ALL"] -> entries_of v es -> go_value v -> ~ condition_keys (map fst es) ->
  (forall k x, In (k, x) es -> forall p t, fst (interpret L ord x p t) = Panic -> crashes L p x) ->
  fst (any_all_node L ord q (kids_of L ord es) t) = Panic -> crashes L kw v.
Proof.
  intros HW HE HG HC IH H. pose proof (map_entries_distinct _ _ HE HG) as HN. pose proof (map_entries_values _ _ HE HG) as HV.
  unfold any_all_node in H. rewrite keys_kids in H. assert (EL : List.length (kids_of L ord es) = List.length es) by apply map_length. rewrite EL in H.
  destruct ((List.length es =? 2)%nat || (List.length es =? 3)%nat) eqn:E1; cbn [negb] in H; [|discriminate].
  destruct (contains_string (map fst es) "parentJsonpathAttribute") eqn:E2; cbn [negb] in H; [|discriminate]. apply contains_in in E2.
  assert (HQ : quant_map kw v es).
  { apply orb_true_iff in E1. rewrite !Nat.eqb_eq in E1. split; [exact HW|]. split; [exact HE|]. split; [exact HC|]. split; [exact E1|exact E2]. }
  apply pbind_panic in H. destruct H as [H|(ks & t1 & HK & H)]; [discriminate H|]. unfold prange in HK. rewrite keys_kids in HK. injection HK as <- <-.
  apply pbind_panic in H. destruct H as [H|((a, inner) & t2 & HL & H)].
  - apply loop_panics in H; auto; [|intros k HK; eapply Permutation_in; [apply Hfair|exact HK]].
    destruct H as [(x & H1 & H2)|[(x & H1 & H2)|(k & x & t3 & H1 & H2 & H3)]]; [eapply cr_parent; eauto|eapply cr_return; eauto|eapply cr_inner; eauto].
  - destruct (String.eqb (a_parent a) ""); discriminate.
Qed.
Lemma map_panics v es p t : entries_of v es -> go_value v ->
  (forall k x, In (k, x) es -> forall p t, fst (interpret L ord x p t) = Panic -> crashes L p x) ->
  fst (handle_map L ord (kids_of L ord es) p t) = Panic -> crashes L p v.
Proof.
  intros HE HG IH H. pose proof (map_entries_distinct _ _ HE HG) as HN. pose proof (map_entries_values _ _ HE HG) as HV.
  unfold handle_map in H. rewrite kids_condition, plain_kids in H. destruct (is_condition_node es) eqn:EC.
  - cbn [fst pret] in H. apply (is_condition_iff es HN) in EC. apply (condition_panic es p HV) in H. destruct H as (k & x & HI & [(HK & HT)|(HK & HT)]).
    + eapply cr_condition; eauto. destruct HK as [HK|HK]; [left|right]; exists k; auto.
    + eapply cr_condition_return; eauto. exists k. auto.
  - assert (NC : ~ condition_keys (map fst es)) by (intro HC; apply (is_condition_iff es HN) in HC; congruence).
    destruct (is_any p ["ANY"]) eqn:EA; [|destruct (is_any p ["ALL"]) eqn:EB].
    + apply is_any_in in EA. destruct EA as [<-|[]]. eapply quant_panics; eauto. simpl; auto.
    + apply is_any_in in EB. destruct EB as [<-|[]]. eapply quant_panics; eauto. simpl; auto.
    + destruct (is_any p ["NOT"]) eqn:EN.
      * apply is_any_in in EN. destruct EN as [<-|[]]. destruct es as [|(k, x) [|? ?]]; try discriminate. cbn [kids_of map fst snd] in H.
        apply pbind_panic in H. destruct H as [H|(m & t1 & H & H')]; [|discriminate H'].
        eapply cr_keyword; eauto; [simpl; tauto|]. eapply IH; eauto. left; auto.
      * destruct (is_any p ["OR"; "AND"; ""; "condition"; "conditions"; "conditionsTree"]) eqn:EP; [|discriminate]. apply is_any_in in EP.
        destruct es as [|(k, x) [|? ?]]; try discriminate. cbn [kids_of map fst snd] in H. eapply cr_keyword; eauto; [simpl in EP |- *; tauto|].
        eapply IH; eauto. left; auto.
Qed.
Lemma seq_panics l : Forall go_value l -> Forall (fun x => forall p t, fst (interpret L ord x p t) = Panic -> crashes L p x) l -> forall t,
  fst (pseq (map (fun x => interpret L ord x "") l) t) = Panic ->
  exists l1 x l2, l = (l1 ++ x :: l2)%list /\ Forall (fun y => exists n, reads L "" y n) l1 /\ crashes L "" x.
Proof.
  intros HG IH. induction HG as [|x l HX HG IHl]; intros t H; cbn [map pseq] in H; [discriminate|]. inversion IH as [|? ? IX IL]; subst.
  apply pbind_panic in H. destruct H as [H|(n & t1 & E & H)].
  - exists [], x, l. split; auto. split; auto. eapply IX; eauto.
  - apply pbind_panic in H. destruct H as [H|(ns & t2 & _ & H)]; [|discriminate H]. destruct (IHl IL _ H) as (l1 & y & l2 & -> & H1 & H2).
    exists (x :: l1), y, l2. split; auto. split; auto. constructor; auto. exists n. eapply read_sound; eauto.
Qed.
Theorem panics_sound v : go_value v -> forall p t, fst (interpret L ord v p t) = Panic -> crashes L p v.
Proof.
  induction v as [| | | | |l IH|m IH|m IH] using iface_ind'; intros HG p t H; try discriminate.
  - inversion HG as [| | | | |? HL| |]; subst. cbn [interpret] in H. destruct (String.eqb p "") eqn:EP.
    + apply String.eqb_eq in EP. destruct l as [|x [|? ?]]; try discriminate. inversion IH as [|? ? HX _]; subst. inversion HL; subst.
      apply cr_single; auto. eapply HX; eauto.
    + unfold handle_array in H. destruct (is_any p ["AND"; "OR"; "NOT"]) eqn:EA; [|discriminate]. apply is_any_in in EA.
      apply pbind_panic in H. destruct H as [H|(ns & t1 & HN & H)].
      * assert (HI : Forall (fun x => forall p t, fst (interpret L ord x p t) = Panic -> crashes L p x) l).
        { clear -IH HL. induction HL; inversion IH; subst; constructor; eauto. }
        destruct (seq_panics l HL HI t H) as (l1 & x & l2 & -> & H1 & H2). apply cr_list; auto.
      * exfalso. cbn [fst pret] in H. unfold node_by_parent in H. repeat match type of H with context [if ?b then _ else _] => destruct b end; discriminate.
  - assert (HE : entries_of (GMapS m) m) by (left; auto). rewrite (interpret_map L ord _ m) in H; auto. eapply map_panics; eauto.
    pose proof (map_entries_values _ _ HE HG) as HV. rewrite Forall_forall in IH, HV. intros k x HI. apply (IH _ HI). exact (HV _ HI).
  - destruct (entries_or_odd m) as [[es HE]|HO]; [|apply cr_key; auto]. rewrite (interpret_map L ord _ es) in H; auto. eapply map_panics; eauto.
    pose proof (map_entries_values _ _ HE HG) as HV. destruct HE as [HE|HE]; [discriminate|]. injection HE as ->. rewrite Forall_map in IH. rewrite Forall_forall in IH, HV.
    intros k x HI. apply (IH _ HI). exact (HV _ HI).
Qed.
End Sound.

(** ** and wherever it does, in some order of visiting the maps *)
Definition may_panic {A} (x : order -> P A) (t : nat) : Prop :=
  exists o t', (t <= t')%nat /\ fair o /\ forall ord, fair ord -> (forall i, (t <= i < t')%nat -> ord i = o i) -> fst (x ord t) = Panic.
Lemma may_now {A} (x : order -> P A) t : (forall o, fair o -> fst (x o t) = Panic) -> may_panic x t.
Proof. intro H. exists some_order, t. split; auto. split; [exact some_fair|]. auto. Qed.
Lemma may_first {A B} (x : order -> P A) (f : order -> A -> P B) t : may_panic x t -> may_panic (fun o => pbind (x o) (f o)) t.
Proof. intros (o & t' & H1 & H2 & H3). exists o, t'. split; auto. split; auto. intros ord HF HO. apply pbind_panic. left. auto. Qed.
Lemma may_then {A B} (x : order -> P A) (f : order -> A -> P B) a t : can x a t -> (forall t1, may_panic (fun o => f o a) t1) ->
  may_panic (fun o => pbind (x o) (f o)) t.
Proof.
  intros (o1 & t1 & L1 & F1 & H1) H. destruct (H t1) as (o2 & t2 & L2 & F2 & H2).
  exists (fun i => if (i <? t1)%nat then o1 i else o2 i), t2. split; [lia|]. split.
  - intros i ks. destruct (i <? t1)%nat; auto.
  - intros ord HF HO. unfold pbind. rewrite (H1 ord HF).
    + apply H2; auto. intros i Hi. rewrite HO by lia. replace (i <? t1)%nat with false by (symmetry; apply Nat.ltb_ge; lia). auto.
    + intros i Hi. rewrite HO by lia. replace (i <? t1)%nat with true by (symmetry; apply Nat.ltb_lt; lia). auto.
Qed.
Lemma may_eq {A} (x y : order -> P A) t : (forall o, fair o -> x o t = y o t) -> may_panic y t -> may_panic x t.
Proof. intros HE (o & t' & H1 & H2 & H3). exists o, t'. split; auto. split; auto. intros ord HF HO. rewrite HE; auto. Qed.

Lemma front k (l : list string) : In k l -> exists l', Permutation (k :: l') l.
Proof. intro H. apply in_split in H. destruct H as (l1 & l2 & ->). exists (l1 ++ l2)%list. apply Permutation_middle. Qed.
Lemma return_may v old t : go_value v -> odd_key v \/ odd_value v -> may_panic (fun o => aa_return L o v old) t.
Proof.
  intros HG H. unfold aa_return. fold (ret_map v). destruct H as [H|(m & k & x & HE & HI & HT)].
  - apply (may_first (fun _ => pret (ret_map v))). apply may_now. intros _ _. apply ret_map_panic. auto.
  - pose proof (map_entries_distinct _ _ HE HG) as HN. pose proof HE as HM. apply (ret_map_iff v m HG) in HM.
    apply (may_then (fun _ => pret (ret_map v)) _ m); [apply (can_ret m (fun _ => ret_map v)); auto|]. intro t1.
    destruct (front k (map fst m)) as [ks HP]; [apply (in_map fst) in HI; exact HI|].
    apply (may_then (fun o => prange o m) _ (k :: ks)); [apply (can_range (fun _ => m) (map fst m)); auto|]. intro t2.
    apply may_first. apply may_now. intros _ _. cbn [fst pret check_return_values]. apply rbind_panic. left. apply text_panic.
    apply (assoc_in_iff k x m HN) in HI. rewrite HI. auto.
Qed.
Lemma quant_may kw q v es : In (kw, q) quant_words -> go_value v -> quant_map kw v es ->
  ((exists x, In ("parentJsonpathAttribute", x) es /\ ~ a_text x) \/
   (exists x, In ("returnValueJsonpath", x) es /\ (odd_key x \/ odd_value x)) \/
   (exists k x, In (k, x) es /\ inner_key k /\ forall t, may_panic (fun o => interpret L o x k) t)) ->
  forall t, may_panic (fun o => any_all_node L o q (kids_of L o es)) t.
Proof.
  intros HW HG (_ & HE & HC & HLen & HPar) H t. pose proof (map_entries_distinct _ _ HE HG) as HN. pose proof (map_entries_values _ _ HE HG) as HV.
  eapply (may_eq _ (fun o => pbind (prange o (kids_of L o es)) (fun ks => pbind (aa_loop L o (kids_of L o es) ks (empty_aa L) NNil)
    (fun '(a, inner) => if String.eqb (a_parent a) "" then pret Err else pret (Ok (NQuant q a inner)))))).
  { intros o HF. unfold any_all_node. rewrite keys_kids. assert (EL : List.length (kids_of L o es) = List.length es) by apply map_length. rewrite EL.
    assert (E1 : (List.length es =? 2)%nat || (List.length es =? 3)%nat = true) by (rewrite orb_true_iff, !Nat.eqb_eq; auto). rewrite E1. cbn [negb].
    assert (E2 : contains_string (map fst es) "parentJsonpathAttribute" = true) by (apply contains_in; auto).
    rewrite E2. reflexivity. }
  assert (HF : exists k x, In (k, x) es /\ forall ks t, may_panic (fun o => aa_loop L o (kids_of L o es) (k :: ks) (empty_aa L) NNil) t).
  { destruct H as [(x & HI & HT)|[(x & HI & HT)|(k & x & HI & HK & HM)]]; eexists; exists x; (split; [exact HI|]); intros ks t1; apply (assoc_in_iff _ x es HN) in HI.
    - apply may_now. intros o _. cbn [aa_loop]. rewrite assoc_kids, HI, String.eqb_refl. apply pbind_panic. left. apply text_panic. auto.
    - eapply may_eq; [|apply (may_first (fun o => aa_return L o x no_ret) (fun o r => aa_loop L o (kids_of L o es) ks (mkAA "" [] "" r []) NNil))].
      + intros o _. cbn [aa_loop]. rewrite assoc_kids, HI. reflexivity.
      + apply return_may; auto. apply assoc_in in HI. rewrite Forall_forall in HV. exact (HV _ HI).
    - eapply may_eq; [|apply (may_first (fun o => interpret L o x k) (fun o n => aa_loop L o (kids_of L o es) ks (empty_aa L) n)); apply HM].
      intros o _. cbn [aa_loop]. rewrite assoc_kids, HI. destruct HK as [K1 K2]. apply String.eqb_neq in K1, K2. rewrite K1, K2. reflexivity. }
  destruct HF as (k & x & HI & HM). destruct (front k (map fst es)) as [ks HP]; [apply (in_map fst) in HI; exact HI|].
  apply (may_then (fun o => prange o (kids_of L o es)) _ (k :: ks)).
  { apply (can_range (fun o => kids_of L o es) (map fst es)); auto. intro o. apply keys_kids. }
  intro t1. apply (may_first (fun o => aa_loop L o (kids_of L o es) (k :: ks) (empty_aa L) NNil)). apply HM.
Qed.
Lemma seq_may l1 : Forall go_value l1 -> Forall (fun y => exists n, reads L "" y n) l1 -> forall x l2, (forall t, may_panic (fun o => interpret L o x "") t) ->
  forall t, may_panic (fun o => pseq (map (fun y => interpret L o y "") (l1 ++ x :: l2)%list)) t.
Proof.
  induction 1 as [|y l1 HY HG IH]; intros HR x l2 HM t; cbn [map app pseq].
  - apply (may_first (fun o => interpret L o x "")). apply HM.
  - inversion HR as [|? ? [n Hn] HR']; subst. apply (may_then (fun o => interpret L o y "") _ n); [apply read_can; auto|]. intro t1.
    apply may_first. apply IH; auto.
Qed.
Theorem panics_may : forall v, go_value v -> forall p, crashes L p v -> forall t, may_panic (fun o => interpret L o v p) t.
Proof.
  assert (HK : forall v p, odd_key v -> forall t, may_panic (fun o => interpret L o v p) t).
  { intros v p (m & k & x & -> & HI & HT) t. apply may_now. intros o _. cbn [interpret]. apply pbind_panic. left. cbn [fst pret]. apply keys_panic.
    exists k, (x, interpret L o x). split; auto. apply in_map_iff. exists (k, x). auto. }
  assert (HM : forall v es, entries_of v es -> go_value v -> (forall k x, In (k, x) es -> forall p, crashes L p x -> forall t, may_panic (fun o => interpret L o x p) t) ->
    forall p, crashes L p v -> forall t, may_panic (fun o => interpret L o v p) t).
  { intros v es HE HG IH p HC t. pose proof (map_entries_distinct _ _ HE HG) as HN. pose proof (map_entries_values _ _ HE HG) as HV.
    pose proof (fun es' H' => entries_unique v es es' HE H') as HU.
    assert (HQ : forall es', quant_map p v es' -> es' = es /\ exists q, In (p, q) quant_words /\ forall o t, interpret L o v p t = any_all_node L o q (kids_of L o es) t).
    { intros es' (HW & HE' & NC & _). rewrite (HU _ HE') in *. split; auto.
      assert (EC : is_condition_node es = false) by (destruct (is_condition_node es) eqn:EC; auto; apply (is_condition_iff es HN) in EC; contradiction).
      destruct HW as [<-|[<-|[]]]; eexists; (split; [simpl; eauto|]); intros o t0; rewrite (interpret_map L o v es); auto; unfold handle_map; rewrite kids_condition, EC; reflexivity. }
    assert (HCN : condition_keys (map fst es) -> node_condition L es p = Panic -> may_panic (fun o => interpret L o v p) t).
    { intros HCK H. apply may_now. intros o _. rewrite (interpret_map L o v es); auto. unfold handle_map. apply (is_condition_iff es HN) in HCK.
      rewrite kids_condition, plain_kids, HCK. exact H. }
    inversion HC as [? HO|? es' x HE' HCK HX HT|? es' x HE' HCK HX HT|? k w HE' HW HCR|x E HCR|l x l' HW HL HCR|? es' x HQM HI HT|? es' x HQM HI HT|? es' k w HQM HI HIK HCR]; subst.
    - apply HK; auto.
    - apply HU in HE'. subst. apply HCN; auto. apply condition_panic; auto. destruct HX as [(k & H1 & H2)|(k & H1 & H2)]; exists k, x; auto.
    - apply HU in HE'. subst. apply HCN; auto. apply condition_panic; auto. destruct HX as (k & H1 & H2); exists k, x; auto.
    - apply HU in HE'. subst es. pose proof (IH k w (or_introl eq_refl) k HCR) as HW'.
      destruct (in_dec string_dec p ["NOT"]) as [[<-|[]]|NN].
      + eapply may_eq; [|apply (may_first (fun o => interpret L o w k) (fun o n => pret (Ok (NNot n)))); apply HW'].
        intros o _. rewrite (interpret_map L o v [(k, w)]); auto. 
      + eapply may_eq; [|apply HW']. intros o _. rewrite (interpret_map L o v [(k, w)]); auto. unfold handle_map. rewrite kids_condition, single_not_condition.
        simpl in HW. destruct HW as [<-|[<-|[<-|[<-|[<-|[<-|[<-|[]]]]]]]]; try reflexivity. exfalso. apply NN. left. auto.
    - exfalso. destruct HE as [E|E]; discriminate E.
    - exfalso. destruct HE as [E|E]; discriminate E.
    - destruct (HQ _ HQM) as (-> & q & HW & HEQ). eapply may_eq; [intros o _; apply HEQ|]. eapply quant_may; eauto.
    - destruct (HQ _ HQM) as (-> & q & HW & HEQ). eapply may_eq; [intros o _; apply HEQ|]. eapply quant_may; eauto.
    - destruct (HQ _ HQM) as (-> & q & HW & HEQ). eapply may_eq; [intros o _; apply HEQ|]. eapply quant_may; eauto. right. right. exists k, w. split; auto. split; auto.
      intro t1. eapply IH; eauto. }
  intro v. induction v as [| | | | |l IH|m IH|m IH] using iface_ind'; intros HG p HC t.
  1-5: exfalso; inversion HC; subst;
    repeat match goal with H : quant_map _ _ _ |- _ => destruct H as (_ & H & _) | H : entries_of _ _ |- _ => destruct H as [H|H]; discriminate H
      | H : odd_key _ |- _ => destruct H as (? & ? & ? & H & _); discriminate H end.
  - inversion HG as [| | | | |? HL| |]; subst.
    inversion HC as [? HO|? es' x HE' HCK HX HT|? es' x HE' HCK HX HT|? k w HE' HW HCR|x E HCR|l1 x l2 HW HRL HCR|? es' x HQM HI HT|? es' x HQM HI HT|? es' k w HQM HI HIK HCR]; subst;
      try (destruct HO as (? & ? & ? & E & _); discriminate E); try (destruct HE' as [E|E]; discriminate E); try (destruct HQM as (_ & [E|E] & _); discriminate E).
    + inversion IH as [|? ? HX _]; inversion HL; subst. eapply may_eq; [|apply HX; eauto]. intros; reflexivity.
    + apply Forall_app in HL. destruct HL as [HL1 HL2]. inversion HL2; subst. apply Forall_app in IH. destruct IH as [_ IH]. inversion IH; subst.
      eapply may_eq; [|apply (may_first (fun o => pseq (map (fun y => interpret L o y "") (l1 ++ x :: l2)%list)) (fun o ns => pret (node_by_parent L p ns)))].
      * intros o _. cbn [interpret]. simpl in HW. unfold handle_array. destruct HW as [<-|[<-|[<-|[]]]]; reflexivity.
      * apply seq_may; auto.
  - apply (HM (GMapS m) m); auto; [left; auto|]. inversion HG as [| | | | | |? HN HL|]; subst. rewrite Forall_forall in IH, HL. intros k x HI. apply (IH _ HI). exact (HL _ HI).
  - destruct (entries_or_odd m) as [[es HE]|HO]; [|apply HK; auto]. apply (HM (GMapI m) es); auto. pose proof (map_entries_values _ _ HE HG) as HV.
    destruct HE as [HE|HE]; [discriminate|]. injection HE as ->. rewrite Forall_map in IH.
    rewrite Forall_forall in IH, HV. intros k x HI. apply (IH _ HI). exact (HV _ HI).
Qed.

Theorem loading_panics v t : go_value v -> crashes L "" v <-> exists ord, fair ord /\ fst (parse_conditions_tree L ord v t) = Panic.
Proof.
  intro HG. split.
  - intro H. destruct (panics_may v HG "" H t) as (o & t' & _ & HF & HO). exists o. split; auto. apply HO; auto.
  - intros (o & HF & H). eapply panics_sound; eauto.
Qed.
Theorem json_panics data t : (exists v, document L v data /\ crashes L "" v) <-> exists ord, fair ord /\ fst (unmarshal_json_tree L ord data t) = Panic.
Proof.
  assert (HX : forall v, document L v data -> String.eqb data "{}" || String.eqb data "[]" = true -> ~ crashes L "" v).
  { intros v HD HE HC. apply parse_iff in HD. apply orb_true_iff in HE. rewrite !String.eqb_eq in HE.
    assert (HV : v = GMapS [] \/ v = GArr []) by (destruct HE as [->| ->]; [left|right]; vm_compute in HD; injection HD as <-; auto). clear -HC HV.
    inversion HC as [? HO|? es' x HE' HCK HX HT|? es' x HE' HCK HX HT|? k w HE' HW HCR|x E HCR|l1 x l2 HW HRL HCR|? es' x HQM HI HT|? es' x HQM HI HT|? es' k w HQM HI HIK HCR]; subst.
    - destruct HO as (m & k & x & E & _). destruct HV; subst; discriminate.
    - destruct HX as [(k & _ & HX)|(k & _ & HX)]; destruct HV as [->| ->]; destruct HE' as [E|E]; try discriminate E; injection E as <-; destruct HX.
    - destruct HX as (k & _ & HX); destruct HV as [->| ->]; destruct HE' as [E|E]; try discriminate E; injection E as <-; destruct HX.
    - destruct HV as [->| ->]; destruct HE' as [E|E]; discriminate E.
    - destruct HV; discriminate.
    - destruct HV as [E|E]; [discriminate|]. injection E as E. destruct l1; discriminate.
    - destruct HQM as (_ & HE' & _). destruct HV as [->| ->]; destruct HE' as [E|E]; try discriminate E; injection E as <-; destruct HI.
    - destruct HQM as (_ & HE' & _). destruct HV as [->| ->]; destruct HE' as [E|E]; try discriminate E; injection E as <-; destruct HI.
    - destruct HQM as (_ & HE' & _). destruct HV as [->| ->]; destruct HE' as [E|E]; try discriminate E; injection E as <-; destruct HI. }
  unfold unmarshal_json_tree. split.
  - intros (v & HD & HC). destruct (String.eqb data "{}" || String.eqb data "[]") eqn:E; [destruct (HX v HD eq_refl HC)|].
    apply parse_iff in HD. rewrite HD. apply (loading_panics v t (parsed_go_value _ _ _ HD)) in HC. destruct HC as (o & HF & H). exists o. split; auto.
    apply pbind_panic. auto.
  - intros (o & HF & H). destruct (String.eqb data "{}" || String.eqb data "[]"); [discriminate|]. destruct (json_parse L data) as [v|] eqn:E; [|discriminate].
    exists v. split; [apply parse_iff; auto|]. apply (loading_panics v t (parsed_go_value _ _ _ E)). exists o. split; auto.
    apply pbind_panic in H. destruct H as [H|(n & t1 & _ & H)]; [auto|discriminate].
Qed.
End WithLib.
