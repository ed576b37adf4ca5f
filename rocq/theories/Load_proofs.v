(** Proofs about loading of condition trees. *)
From Coq Require Import List String Ascii Bool Arith ZArith Permutation Lia.
From Verif Require Import Base GoStr GoStr_facts GoFloat Types Json StrUtils Validate Prepare Parse Spec_Tree Match_proofs
  Spec_Leaf Leaf_proofs Spec_Validate Validate_proofs Spec_Load Tree_proofs Lifecycle Spec_Lifecycle Lifecycle_proofs.
Import ListNotations.
Open Scope string_scope.
Local Arguments String.prefix : simpl never.

(** ** Induction on values *)
Section IfaceInd.
Variable Q : iface -> Prop.
Hypothesis HNil : Q GNil.
Hypothesis HBool : forall b, Q (GBool b).
Hypothesis HInt : forall z, Q (GInt z).
Hypothesis HFloat : forall f, Q (GFloat f).
Hypothesis HStr : forall s, Q (GStr s).
Hypothesis HArr : forall l, Forall Q l -> Q (GArr l).
Hypothesis HMapS : forall m, Forall (fun kv => Q (snd kv)) m -> Q (GMapS m).
Hypothesis HMapI : forall m, Forall (fun kv => Q (snd kv)) m -> Q (GMapI m).
Fixpoint iface_ind' (v : iface) : Q v :=
  match v with
  | GNil => HNil
  | GBool b => HBool b
  | GInt z => HInt z
  | GFloat f => HFloat f
  | GStr s => HStr s
  | GArr l => HArr l ((fix go l : Forall Q l := match l with [] => Forall_nil _ | x :: l' => Forall_cons _ (iface_ind' x) (go l') end) l)
  | GMapS m => HMapS m ((fix go l : Forall (fun kv => Q (snd kv)) l :=
      match l with [] => Forall_nil _ | (k, x) :: l' => Forall_cons (k, x) (iface_ind' x : Q (snd (k, x))) (go l') end) m)
  | GMapI m => HMapI m ((fix go l : Forall (fun kv => Q (snd kv)) l :=
      match l with [] => Forall_nil _ | (k, x) :: l' => Forall_cons (k, x) (iface_ind' x : Q (snd (k, x))) (go l') end) m)
  end.
End IfaceInd.

(** ** String keys *)
Lemma upsert_new {A} k (a : A) l : ~ In k (keys l) -> upsert k a l = (l ++ [(k, a)])%list.
Proof.
  induction l as [|(x, b) l IH]; simpl; intro H; [auto|]. destruct (String.eqb k x) eqn:E; [apply String.eqb_eq in E; subst; tauto|].
  rewrite IH; tauto.
Qed.
Lemma string_keys {A} (m : list (string * A)) acc : NoDup (keys acc ++ keys m)%list ->
  map_to_string_keys (map (fun kv => (GStr (fst kv), snd kv)) m) acc = Ok (acc ++ m)%list.
Proof.
  revert acc. induction m as [|(k, a) m IH]; intros acc H; simpl; [rewrite app_nil_r; auto|].
  assert (HK : ~ In k (keys acc)).
  { intro HI. apply NoDup_remove_2 in H. apply H. apply in_or_app. auto. }
  rewrite upsert_new by auto. rewrite IH.
  - rewrite <- app_assoc. auto.
  - unfold keys in *. rewrite map_app. simpl. rewrite <- app_assoc. auto.
Qed.

Section WithLib.
Variable L : Lib.
Variable ord : order.

(** ** Wrappers *)
Lemma handle_map_parent v p p' t : In p ["conditionsTree"; "condition"; ""] -> In p' ["conditionsTree"; "condition"; ""] ->
  handle_map L ord v p t = handle_map L ord v p' t.
Proof.
  intros [<-|[<-|[<-|[]]]] [<-|[<-|[<-|[]]]]; auto.
Qed.
Lemma map_parent v p p' t : is_map v -> In p ["conditionsTree"; "condition"; ""] -> In p' ["conditionsTree"; "condition"; ""] ->
  interpret L ord v p t = interpret L ord v p' t.
Proof.
  intros [[m ->]|[m ->]] H H'; cbn [interpret].
  - apply handle_map_parent; auto.
  - unfold pbind, pret. destruct (map_to_string_keys _ []); auto. apply handle_map_parent; auto.
Qed.
Lemma under_map v w : is_map v -> under_keys v w -> is_map w.
Proof. intros H HU. destruct HU; auto; [left|right]; eauto. Qed.
Lemma one_key k (e : iface * (string -> P (node L))) p t : In k transparent -> In p ["conditionsTree"; "condition"; ""] ->
  handle_map L ord [(k, e)] p t = snd e k t.
Proof. intros [<-|[<-|[]]] [<-|[<-|[<-|[]]]]; destruct e; reflexivity. Qed.
Lemma under_same v w p p' t : is_map v -> under_keys v w -> In p ["conditionsTree"; "condition"; ""] -> In p' ["conditionsTree"; "condition"; ""] ->
  interpret L ord w p t = interpret L ord v p' t.
Proof.
  intros HM HU. revert p. induction HU as [|k w HK HU IH|k w HK HU IH]; intros p Hp Hp'.
  - apply map_parent; auto.
  - cbn [interpret map]. cbn [fst snd]. rewrite one_key by auto. apply IH; auto. destruct HK as [<-|[<-|[]]]; simpl; auto.
  - cbn [interpret map]. cbn [fst snd]. change (map_to_string_keys [(GStr k, (w, interpret L ord w))] []) with (Ok [(k, (w, interpret L ord w))]).
    unfold pbind, pret. rewrite one_key by auto. apply IH; auto. destruct HK as [<-|[<-|[]]]; simpl; auto.
Qed.
Theorem wrapper_transparent v w t : is_map v -> wrapped v w -> parse_conditions_tree L ord w t = parse_conditions_tree L ord v t.
Proof.
  intros HM HW. unfold parse_conditions_tree. induction HW as [w HU|w HW IH].
  - apply under_same; simpl; auto.
  - cbn [interpret]. auto.
Qed.

(** ** Styles of maps *)
Definition same_kid (a b : string * (iface * (string -> P (node L)))) : Prop :=
  fst a = fst b /\ (In (fst a) ["value"; "Value"] -> go_fmt L (fst (snd a)) = go_fmt L (fst (snd b))) /\ restyled L (fst (snd a)) (fst (snd b)) /\
  forall p t, snd (snd a) p t = snd (snd b) p t.

Lemma restyled_string v v' : restyled L v v' -> as_string v = as_string v'.
Proof. intro H. inversion H as [|? ? [[? ->]|[? ->]] [[? ->]|[? ->]]| | |]; subst; auto. Qed.
Lemma is_any_in x l : is_any x l = true <-> In x l.
Proof.
  unfold is_any. rewrite existsb_exists. split; [intros (y & HI & E); apply String.eqb_eq in E; subst; auto|].
  intro H. exists x. split; auto. apply String.eqb_refl.
Qed.
Lemma restyled_strings m m' : Forall2 (fun a b => fst a = fst b /\ (In (fst a) ["value"; "Value"] -> go_fmt L (snd a) = go_fmt L (snd b)) /\ restyled L (snd a) (snd b)) m m' ->
  strings_of_map m = strings_of_map m'.
Proof.
  induction 1 as [|(k, a) (k', b) m m' (E1 & _ & E2) HF IH]; [auto|]. simpl in E1, E2. subst k'. unfold strings_of_map in *. simpl.
  rewrite (restyled_string _ _ E2), IH. auto.
Qed.
Lemma restyled_yaml m m' : NoDup (keys m) ->
  Forall2 (fun a b => GStr (fst a) = fst b /\ (In (fst a) ["value"; "Value"] -> go_fmt L (snd a) = go_fmt L (snd b)) /\ restyled L (snd a) (snd b)) m m' ->
  exists m2, m' = map (fun kv => (GStr (fst kv), snd kv)) m2 /\ NoDup (keys m2) /\ keys m = keys m2 /\
    Forall2 (fun a b => fst a = fst b /\ (In (fst a) ["value"; "Value"] -> go_fmt L (snd a) = go_fmt L (snd b)) /\ restyled L (snd a) (snd b)) m m2.
Proof.
  intros HN HF.
  assert (H : exists m2, m' = map (fun kv => (GStr (fst kv), snd kv)) m2 /\ keys m = keys m2 /\
    Forall2 (fun a b => fst a = fst b /\ (In (fst a) ["value"; "Value"] -> go_fmt L (snd a) = go_fmt L (snd b)) /\ restyled L (snd a) (snd b)) m m2).
  { clear HN. induction HF as [|(k, a) (k', b) m m' (E1 & E2 & E3) HF (m2 & -> & EK & IH)]; [exists []; auto|].
    simpl in *. subst k'. exists ((k, b) :: m2). simpl. split; [auto|]. split; [f_equal; auto|]. constructor; auto. }
  destruct H as (m2 & E & EK & H). exists m2. repeat split; auto. rewrite <- EK. auto.
Qed.

Lemma read_same v v' c : Forall2 (fun a b => fst a = fst b /\ (In (fst a) ["value"; "Value"] -> go_fmt L (snd a) = go_fmt L (snd b)) /\ restyled L (snd a) (snd b)) v v' ->
  read_condition L v c = read_condition L v' c.
Proof.
  intro HF. revert c. induction HF as [|(k, a) (k', b) v v' (E1 & E2 & E3) HF IH]; intro c; [auto|]. cbn [fst snd] in *. subst k'.
  cbn [read_condition]. rewrite (restyled_string _ _ E3).
  assert (EV : is_any k ["value"; "Value"] = true -> go_fmt L a = go_fmt L b) by (intro H; apply E2, is_any_in; auto).
  assert (ER : match a with GMapS m => strings_of_map m | GMapI m => do m' <- map_to_string_keys m []; strings_of_map m' | _ => Ok [] end =
               match b with GMapS m => strings_of_map m | GMapI m => do m' <- map_to_string_keys m []; strings_of_map m' | _ => Ok [] end).
  { inversion E3; subst; auto.
    - destruct H as [[? ->]|[? ->]], H0 as [[? ->]|[? ->]]; auto.
    - apply restyled_strings; auto.
    - destruct (restyled_yaml _ _ H H0) as (m2 & -> & HN & _ & HF2). rewrite (string_keys m2 []) by auto. simpl. apply restyled_strings. auto. }
  destruct (is_any k ["attribute"; "Attribute"]); [destruct (as_string b); simpl; auto|].
  destruct (is_any k ["method"; "Method"]); [destruct (as_string b); simpl; auto|].
  destruct (is_any k ["value"; "Value"]); [rewrite EV by auto; simpl; auto|].
  destruct (is_any k ["returnValueJsonpath"; "ReturnValueJsonpath"]); [rewrite ER|simpl; auto].
  destruct (match b with GMapS _ => _ | _ => _ end); simpl; auto.
Qed.

Lemma kids_keys v v' : Forall2 same_kid v v' -> keys v = keys v'.
Proof. induction 1 as [|a b v v' (E & _) HF IH]; simpl; [auto|]. f_equal; auto. Qed.
Lemma kids_length v v' : Forall2 same_kid v v' -> List.length v = List.length v'.
Proof. induction 1; simpl; auto. Qed.
Lemma kids_plain v v' : Forall2 same_kid v v' ->
  Forall2 (fun a b => fst a = fst b /\ (In (fst a) ["value"; "Value"] -> go_fmt L (snd a) = go_fmt L (snd b)) /\ restyled L (snd a) (snd b)) (plain L v) (plain L v').
Proof. induction 1 as [|a b v v' (E1 & E2 & E3 & E4) HF IH]; simpl; constructor; auto. Qed.
Lemma kids_assoc v v' k : Forall2 same_kid v v' ->
  match assoc k v, assoc k v' with
  | Some a, Some b => same_kid (k, a) (k, b)
  | None, None => True
  | _, _ => False
  end.
Proof.
  induction 1 as [|(x, a) (y, b) v v' HS HF IH]; simpl; [auto|]. pose proof HS as (E1 & E2 & E3 & E4). simpl in E1, E2, E3, E4. subst y.
  destruct (String.eqb k x) eqn:E; auto. apply String.eqb_eq in E. subst. auto.
Qed.

Lemma aa_return_same x y old t : restyled L x y -> aa_return L ord x old t = aa_return L ord y old t.
Proof.
  intro HR. inversion HR; subst; auto.
  - destruct H as [[? ->]|[? ->]], H0 as [[? ->]|[? ->]]; auto.
  - unfold aa_return, pbind, pret, prange.
    assert (EK : keys m = keys m').
    { clear HR. induction H as [|a b m m' (E1 & _) HF IH]; simpl; [auto|]. f_equal; auto. }
    rewrite EK.
    assert (EC : forall ks, check_return_values m ks = check_return_values m' ks).
    { intro ks. induction ks as [|k ks IH]; [auto|]. cbn [check_return_values].
      assert (EA : as_string (match assoc k m with Some v => v | None => GNil end) = as_string (match assoc k m' with Some v => v | None => GNil end)).
      { clear -H. induction H as [|(k1, a) (k2, b) m m' (E1 & E2 & E3) HF IH]; simpl in *; auto. subst k2.
        destruct (String.eqb k k1); auto. apply restyled_string. auto. }
      rewrite EA, IH. auto. }
    rewrite EC. destruct (check_return_values m' (ord t (keys m'))); auto.
    rewrite (restyled_strings _ _ H). destruct m, m'; try discriminate; auto.
  - destruct (restyled_yaml _ _ H H0) as (m2 & -> & HN & EK & HF2).
    unfold aa_return, pbind, pret, prange. rewrite (string_keys m2 []) by auto. simpl app.
    rewrite EK.
    assert (EC : forall ks, check_return_values m ks = check_return_values m2 ks).
    { intro ks. induction ks as [|k ks IH]; [auto|]. cbn [check_return_values].
      assert (EA : as_string (match assoc k m with Some v => v | None => GNil end) = as_string (match assoc k m2 with Some v => v | None => GNil end)).
      { clear -HF2. induction HF2 as [|(k1, a) (k2, b) m m' (E1 & E2 & E3) HF IH]; simpl in *; auto. subst k2.
        destruct (String.eqb k k1); auto. apply restyled_string. auto. }
      rewrite EA, IH. auto. }
    rewrite EC. destruct (check_return_values m2 (ord t (keys m2))); auto.
    rewrite (restyled_strings _ _ HF2). destruct m, m2; try discriminate; auto.
Qed.

Lemma aa_loop_same v v' ks a inner t : Forall2 same_kid v v' -> aa_loop L ord v ks a inner t = aa_loop L ord v' ks a inner t.
Proof.
  intro HF. revert a inner t. induction ks as [|k ks IH]; intros a inner t; [auto|]. cbn [aa_loop].
  pose proof (kids_assoc v v' k HF) as HA. destruct (assoc k v) as [[x i]|], (assoc k v') as [[y j]|]; try tauto.
  destruct HA as (_ & _ & HR & HI). simpl in HR, HI.
  destruct (String.eqb k "parentJsonpathAttribute").
  { rewrite (restyled_string _ _ HR). unfold pbind, pret. destruct (as_string y); auto. destruct (valid_parent a0); auto. }
  destruct (String.eqb k "returnValueJsonpath").
  { unfold pbind. rewrite (aa_return_same _ _ _ _ HR). destruct (aa_return L ord y (a_ret a) t) as [[r| |] t']; auto. }
  unfold pbind. rewrite HI. destruct (j k t) as [[n| |] t']; auto.
Qed.

Lemma handle_map_same v v' p t : Forall2 same_kid v v' -> handle_map L ord v p t = handle_map L ord v' p t.
Proof.
  intro HF. unfold handle_map.
  assert (EC : is_condition_node v = is_condition_node v').
  { unfold is_condition_node. rewrite (kids_keys _ _ HF). auto. }
  rewrite EC. destruct (is_condition_node v').
  { unfold pret, node_condition. rewrite (read_same _ _ _ (kids_plain _ _ HF)). auto. }
  assert (EQ : forall q, any_all_node L ord q v t = any_all_node L ord q v' t).
  { intro q. unfold any_all_node. rewrite (kids_length _ _ HF), (kids_keys _ _ HF).
    destruct (negb _); auto. destruct (negb _); auto. unfold pbind, prange. rewrite (kids_keys _ _ HF).
    rewrite (aa_loop_same _ _ _ _ _ _ HF). auto. }
  destruct (is_any p ["ANY"]); [auto|]. destruct (is_any p ["ALL"]); [auto|].
  destruct HF as [|(k, (x, i)) (k', (y, j)) v v' (E1 & E2 & E3 & E4) HF]; [auto|]. simpl in E1, E2, E3, E4. subst k'.
  destruct HF as [|(k2, (x2, i2)) (k2', (y2, j2)) v v' (E1' & E2' & E3' & E4') HF].
  - unfold pbind. destruct (is_any p ["NOT"]); [rewrite E4; auto|]. destruct (is_any p _); auto.
  - simpl in E1'. subst k2'. destruct (is_any p ["NOT"]); [auto|]. destruct (is_any p _); auto.
Qed.

Lemma pseq_same {A} (l l' : list (P A)) t : Forall2 (fun a b => forall t, a t = b t) l l' -> pseq l t = pseq l' t.
Proof.
  intro HF. revert t. induction HF as [|a b l l' E HF IH]; intro t; [auto|]. cbn [pseq]. unfold pbind. rewrite E.
  destruct (b t) as [[x| |] t']; auto. rewrite IH. auto.
Qed.

Lemma interpret_same v : forall v' p t, restyled L v v' -> interpret L ord v p t = interpret L ord v' p t.
Proof.
  induction v as [| | | | |l IH|m IH|m IH] using iface_ind'; intros v' p t HR; inversion HR as [|? ? HA HB|? ? HL|? ? HM|? ? HN HM]; subst; auto;
    try (destruct HA as [[? E]|[? E]]; try discriminate E; destruct HB as [[? ->]|[? ->]]; reflexivity).
  - assert (HF : Forall2 (fun a b => forall p t, interpret L ord a p t = interpret L ord b p t) l l').
    { clear HR. induction HL; constructor; inversion IH; subst; auto. }
    cbn [interpret]. destruct (String.eqb p "").
    + destruct HF as [|a b l l' E HF]; [auto|]. destruct HF; auto.
    + unfold handle_array. destruct (is_any p _); auto. unfold pbind. rewrite (pseq_same _ (map (fun x => interpret L ord x "") l')); auto.
      clear -HF. induction HF; simpl; constructor; auto.
  - cbn [interpret]. apply handle_map_same. clear HR. induction HM as [|a b m m' (E1 & E2 & E3) HF IHF]; simpl; constructor.
    + inversion IH; subst. split; [auto|]. split; [auto|]. split; [auto|]. cbn [fst snd]. auto.
    + inversion IH; subst. auto.
  - destruct (restyled_yaml _ _ HN HM) as (m2 & -> & HN2 & EK & HF2). cbn [interpret]. rewrite map_map. cbn [fst snd].
    assert (EM : map_to_string_keys (map (fun x => (GStr (fst x), (snd x, interpret L ord (snd x)))) m2) [] =
                 Ok (map (fun kv => (fst kv, (snd kv, interpret L ord (snd kv)))) m2)).
    { pose proof (string_keys (map (fun kv => (fst kv, (snd kv, interpret L ord (snd kv)))) m2) []) as HS.
      rewrite map_map in HS. cbn [fst snd] in HS. simpl app in HS. apply HS. unfold keys. rewrite map_map. simpl. exact HN2. }
    rewrite EM. unfold pbind, pret. apply handle_map_same. clear -IH HF2. induction HF2 as [|a b m m' (E1 & E2 & E3) HF IHF]; simpl; constructor.
    + inversion IH; subst. split; [auto|]. split; [auto|]. split; [auto|]. cbn [fst snd]. auto.
    + inversion IH; subst. auto.
Qed.
Theorem style_irrelevant v v' t : restyled L v v' -> parse_conditions_tree L ord v t = parse_conditions_tree L ord v' t.
Proof. apply interpret_same. Qed.

(** ** Shape *)
Lemma pbind_ok {A B} (x : P A) (f : A -> P B) t b t' : pbind x f t = (Ok b, t') -> exists a t1, x t = (Ok a, t1) /\ f a t1 = (Ok b, t').
Proof. unfold pbind. destruct (x t) as [[a| |] t1]; intro H; try discriminate. eauto. Qed.
Lemma pret_ok {A} (r : res A) t b t' : pret r t = (Ok b, t') -> r = Ok b /\ t' = t.
Proof. unfold pret. intro H. injection H; auto. Qed.

Lemma accepted_fields (c c' : cond L) : validate_condition L c = Ok c' ->
  c_attr c' = c_attr c /\ c_method c' = c_method c /\ c_value c' = c_value c /\ c_ret c' = c_ret c /\
  c_lab c' = c_lab c /\ c_obj c' = c_obj c /\ c_jp c' = c_jp c /\ c_orig c' = c_orig c.
Proof.
  unfold validate_condition. intro H. apply rbind_ok in H. destruct H as (u & _ & H). apply rbind_ok in H. destruct H as (u' & _ & H).
  unfold validate_numerical in H. destruct (_ && _); [discriminate|]. destruct (_ && _); [discriminate|]. injection H; intros <-. repeat split; reflexivity.
Qed.

Lemma in_map_ext {A B} (f : string * A -> string * B) m name b : In (name, b) (map f m) -> exists e, In e m /\ f e = (name, b).
Proof. intro H. apply in_map_iff in H. destruct H as (e & E & HI). eauto. Qed.
Lemma starts_iff p s : has_prefix s p = true <-> starts p s.
Proof. unfold has_prefix. split; intro H; [apply has_prefix_iff; auto|apply has_prefix_iff in H; auto]. Qed.

Lemma condition_returns cn : loaded_returns L (cn_ret cn) (c_ret (condition_from_node L cn)).
Proof.
  unfold condition_from_node. destruct (cn_ret cn) as [m|]; simpl; [|split; auto].
  split; [auto|]. split; [exists (map (fun kv => (fst kv, cond_ret_path (snd kv))) m); split; [auto|]; unfold keys; rewrite map_map; auto|].
  split; [unfold keys; simpl; rewrite map_map; auto|].
  intros name b H. apply in_map_ext in H. destruct H as ((k, path) & HI & E). injection E; intros; subst. exists path. split; auto. apply starts_iff.
Qed.
Definition distinct_returns (cn : condnode) : Prop := match cn_ret cn with Some m => NoDup (keys m) | None => True end.
(** exactly how the loader builds a tree *)
Inductive made : node L -> Prop :=
| md_and ns : Forall made ns -> made (NAnd ns)
| md_or ns : Forall made ns -> made (NOr ns)
| md_not n : n = NNil \/ made n -> made (NNot n)
| md_quant q s r n : n = NNil \/ made n -> valid_parent s = true -> replace_all s "jsonpath:" "" <> "" ->
    (r = no_ret \/ exists m, m <> [] /\ r = set_return_values L m /\ Forall (fun e => starts "jsonpath:$RELATIVE" (snd e)) m) ->
    made (NQuant q (mkAA (replace_all s "jsonpath:" "") [] s r []) n)
| md_cond cn c : distinct_returns cn -> validate_condition L (condition_from_node L cn) = Ok c -> made (NCond c).

Lemma keys_strings m s : strings_of_map m = Ok s -> keys s = keys m.
Proof.
  revert s. induction m as [|(k, v) m IH]; intros s HS; unfold strings_of_map in HS; cbn [rmapM] in HS.
  - injection HS; intros <-. auto.
  - apply rbind_ok in HS. destruct HS as (e & HE & HS). apply rbind_ok in HS. destruct HS as (es & HE2 & HS). injection HS; intros <-.
    apply rbind_ok in HE. destruct HE as (x & HX & HE). injection HE; intros <-. simpl. f_equal. apply IH. exact HE2.
Qed.
Lemma keys_upsert {A} k (a : A) l : NoDup (keys l) -> NoDup (keys (upsert k a l)) /\ forall x, In x (keys (upsert k a l)) -> x = k \/ In x (keys l).
Proof.
  induction l as [|(x, b) l IH]; simpl; intro H.
  - split; [constructor; auto; constructor|]. intros y [<-|[]]; auto.
  - inversion H as [|? ? H1 H2]; subst. destruct (String.eqb k x) eqn:E.
    + apply String.eqb_eq in E. subst. simpl. split; auto.
    + apply String.eqb_neq in E. destruct (IH H2) as [I1 I2]. simpl. split.
      * constructor; auto. intro HI. destruct (I2 _ HI); [congruence|auto].
      * intros y [<-|HI]; auto. destruct (I2 _ HI); auto.
Qed.
Lemma string_keys_distinct {A} (m : list (iface * A)) acc m' : map_to_string_keys m acc = Ok m' -> NoDup (keys acc) -> NoDup (keys m').
Proof.
  revert acc. induction m as [|(k, v) m IH]; intros acc H HN; cbn [map_to_string_keys] in H.
  - injection H; intros <-. auto.
  - apply rbind_ok in H. destruct H as (s & _ & H). eapply IH; eauto. apply keys_upsert; auto.
Qed.
Lemma read_distinct v : forall c c', Forall (fun kv => go_value (snd kv)) v -> distinct_returns c -> read_condition L v c = Ok c' -> distinct_returns c'.
Proof.
  induction v as [|(k, x) v IH]; intros c c' HV HD H; cbn [read_condition] in H.
  - injection H as <-. auto.
  - apply rbind_ok in H. destruct H as (c1 & H1 & H). inversion HV as [|? ? HX HV']; subst. eapply IH; [auto| |exact H]. clear H IH. cbn [snd] in HX.
    destruct (is_any k _); [apply rbind_ok in H1; destruct H1 as (s & _ & H1); injection H1 as <-; exact HD|].
    destruct (is_any k _); [apply rbind_ok in H1; destruct H1 as (s & _ & H1); injection H1 as <-; exact HD|].
    destruct (is_any k _); [injection H1 as <-; exact HD|].
    destruct (is_any k _); [|injection H1 as <-; exact HD].
    apply rbind_ok in H1. destruct H1 as (m & HM & H1). injection H1 as <-. unfold distinct_returns. cbn [cn_ret].
    destruct x as [| | | | |l|o|o]; try (injection HM as <-; constructor).
    + rewrite (keys_strings _ _ HM). inversion HX; auto.
    + apply rbind_ok in HM. destruct HM as (o' & HO & HM). rewrite (keys_strings _ _ HM). eapply string_keys_distinct; [exact HO|constructor].
Qed.

Lemma made_condition v p n : Forall (fun kv => go_value (snd kv)) v -> node_condition L v p = Ok n -> made n.
Proof.
  intro HG. unfold node_condition. intro H. apply rbind_ok in H. destruct H as (cn & HR & H). apply rbind_ok in H. destruct H as (c & HV & H).
  assert (HC : made (NCond c)) by (apply md_cond with (cn := cn); auto; eapply read_distinct; [exact HG| |exact HR]; exact I).
  destruct (is_any p _); [injection H; intros <-; auto|]. unfold node_by_parent in H.
  destruct (is_any p _); [injection H; intros <-; apply md_and; auto|].
  destruct (is_any p _); [injection H; intros <-; apply md_or; auto|].
  destruct (is_any p _); [injection H; intros <-; apply md_not; auto|discriminate].
Qed.

Definition good_aa (a : aanode L) : Prop :=
  (a_parent a = "" \/ (valid_parent (a_orig a) = true /\ a_parent a = replace_all (a_orig a) "jsonpath:" "")) /\
  a_parents a = [] /\ a_prep a = [] /\
  (a_ret a = no_ret \/ exists m, m <> [] /\ a_ret a = set_return_values L m /\ Forall (fun e => starts "jsonpath:$RELATIVE" (snd e)) m).

Hypothesis Hfair : fair ord.

Lemma checked_returns m ks s : check_return_values m ks = Ok tt -> strings_of_map m = Ok s -> incl (keys m) ks ->
  NoDup (keys m) -> Forall (fun e => starts "jsonpath:$RELATIVE" (snd e)) s.
Proof.
  intros HC HS HI HN.
  assert (HA : forall k, In k ks -> exists x, as_string (match assoc k m with Some v => v | None => GNil end) = Ok x /\ starts "jsonpath:$RELATIVE" x).
  { clear HS HI HN. induction ks as [|k ks IH]; intros k' HK; [destruct HK|]. cbn [check_return_values] in HC. apply rbind_ok in HC.
    destruct HC as (x & HX & HC). destruct (has_prefix x _) eqn:E; [|discriminate]. destruct HK as [<-|HK]; [|auto].
    exists x. split; auto. apply starts_iff. auto. }
  assert (HB : forall k v, In (k, v) m -> exists x, as_string v = Ok x /\ starts "jsonpath:$RELATIVE" x).
  { intros k v HK. destruct (HA k) as (x & HX & HP); [apply HI, in_map_iff; exists (k, v); auto|]. rewrite (in_assoc _ _ _ HN HK) in HX. eauto. }
  clear -HS HB. revert s HS. induction m as [|(k, v) m IH]; intros s HS; unfold strings_of_map in HS; cbn [rmapM] in HS.
  - injection HS; intros <-. auto.
  - apply rbind_ok in HS. destruct HS as (e & HE & HS). apply rbind_ok in HS. destruct HS as (es & HE2 & HS). injection HS; intros <-.
    apply rbind_ok in HE. destruct HE as (x & HX & HE). injection HE; intros <-. constructor.
    + destruct (HB k v) as (y & HY & HP); [left; auto|]. simpl in *. congruence.
    + apply IH; auto. intros. eapply HB. right; eauto.
Qed.

Lemma set_returns m : loaded_returns L (Some m) (set_return_values L m).
Proof.
  split; [auto|]. split; [exists (map (fun kv => (fst kv, aa_ret_path (snd kv))) m); split; [auto|]; unfold keys; rewrite map_map; auto|].
  split; [unfold set_return_values, keys; simpl; rewrite map_map; auto|].
  intros name b H. unfold set_return_values in H. cbn [r_rel] in H. apply in_map_ext in H. destruct H as ((k, path) & HI & E).
  injection E; intros; subst. exists path. split; auto. apply starts_iff.
Qed.

Lemma returned_good v old t r t' : go_value v -> aa_return L ord v old t = (Ok r, t') ->
  r = old \/ exists m, m <> [] /\ r = set_return_values L m /\ Forall (fun e => starts "jsonpath:$RELATIVE" (snd e)) m.
Proof.
  intros HG H. unfold aa_return in H. apply pbind_ok in H. destruct H as (m & t1 & HM & H). apply pret_ok in HM. destruct HM as [HM ->].
  apply pbind_ok in H. destruct H as (ks & t2 & HK & H). unfold prange in HK. injection HK; intros <- <-.
  apply pbind_ok in H. destruct H as (u & t3 & HU & H). apply pret_ok in HU. destruct HU as [HU ->]. destruct u.
  assert (HN : NoDup (keys m)).
  { destruct v; try discriminate; [injection HM; intros <-; inversion HG; auto|]. eapply string_keys_distinct; eauto. constructor. }
  assert (HI : incl (keys m) (ord t (keys m))) by (intros x HX; eapply Permutation_in; [apply Permutation_sym, Hfair|auto]).
  apply pret_ok in H. destruct H as [H _]. destruct m as [|e m]; [injection H; auto|]. right.
  apply rbind_ok in H. destruct H as (s & HS & H). injection H; intros <-.
  exists s. split; [|split; [reflexivity|eapply checked_returns; eauto]].
  unfold strings_of_map in HS. cbn [rmapM] in HS. apply rbind_ok in HS. destruct HS as (? & _ & HS). apply rbind_ok in HS. destruct HS as (? & _ & HS).
  injection HS; intros <-. discriminate.
Qed.

Definition good_kid (e : string * (iface * (string -> P (node L)))) : Prop :=
  go_value (fst (snd e)) /\ forall p t n t', snd (snd e) p t = (Ok n, t') -> made n.
Lemma assoc_kid k (v : kids L) e : Forall good_kid v -> assoc k v = Some e -> good_kid (k, e).
Proof.
  intros HF. induction HF as [|(x, y) v H HF IH]; simpl; [discriminate|]. destruct (String.eqb k x) eqn:E; auto.
  apply String.eqb_eq in E. subst. intro H'. injection H'; intros <-. auto.
Qed.

Lemma valid_parent_ok s : valid_parent s = true -> legal_parent s.
Proof. unfold valid_parent, legal_parent. rewrite !orb_true_iff, !starts_iff. tauto. Qed.

Lemma loop_good v ks : Forall good_kid v -> forall a inner t a' inner' t', good_aa a -> inner = NNil \/ made inner ->
  aa_loop L ord v ks a inner t = (Ok (a', inner'), t') -> good_aa a' /\ (inner' = NNil \/ made inner').
Proof.
  intro HF. induction ks as [|k ks IH]; intros a inner t a' inner' t' HA HI H; cbn [aa_loop] in H.
  - apply pret_ok in H. destruct H as [H _]. injection H; intros <- <-. auto.
  - destruct (assoc k v) as [[x i]|] eqn:EA; [|discriminate]. destruct (assoc_kid _ _ _ HF EA) as [HG HL]. cbn [fst snd] in HG, HL.
    destruct HA as (A1 & A2 & A3 & A4).
    destruct (String.eqb k _); [|destruct (String.eqb k _)].
    + apply pbind_ok in H. destruct H as (s & t1 & HS & H). apply pret_ok in HS. destruct HS as [HS ->].
      destruct (valid_parent s) eqn:EV; [|discriminate]. eapply IH; [|exact HI|exact H].
      unfold good_aa. cbn [a_parent a_parents a_orig a_ret a_prep]. split; [right; split; auto|auto].
    + apply pbind_ok in H. destruct H as (r & t1 & HR & H). eapply IH; [|exact HI|exact H].
      unfold good_aa. cbn [a_parent a_parents a_orig a_ret a_prep]. split; auto. split; auto. split; auto.
      apply returned_good in HR; auto. destruct HR as [->|HR]; auto.
    + apply pbind_ok in H. destruct H as (n & t1 & HN & H). eapply IH; [|right; eapply HL; eauto|exact H]. unfold good_aa; auto.
Qed.

Lemma any_all_made q v t n t' : Forall good_kid v -> any_all_node L ord q v t = (Ok n, t') -> made n.
Proof.
  intros HF H. unfold any_all_node in H. destruct (negb _); [discriminate|]. destruct (negb _); [discriminate|].
  apply pbind_ok in H. destruct H as (ks & t1 & _ & H). apply pbind_ok in H. destruct H as ((a, inner) & t2 & HL & H).
  apply loop_good in HL; auto.
  - destruct HL as ((A1 & A2 & A3 & A4) & HI). destruct (String.eqb (a_parent a) "") eqn:E; [discriminate|]. apply pret_ok in H. destruct H as [H _].
    injection H; intros <-. apply String.eqb_neq in E. destruct A1 as [A1|[A1 A1']]; [congruence|]. destruct a as [a1 a2 a3 a4 a5]. simpl in *. subst. apply md_quant; auto.
  - unfold good_aa, empty_aa; simpl. auto.
Qed.

Lemma handle_made v p t n t' : Forall good_kid v -> handle_map L ord v p t = (Ok n, t') -> made n.
Proof.
  intros HF H. unfold handle_map in H. destruct (is_condition_node v).
  { apply pret_ok in H. destruct H as [H _]. eapply made_condition; [|eauto]. unfold plain. apply Forall_map. eapply Forall_impl; [|exact HF]. intros [k [x i]] [HG _]. exact HG. }
  destruct (is_any p _); [eapply any_all_made; eauto|]. destruct (is_any p _); [eapply any_all_made; eauto|].
  destruct (is_any p ["NOT"]).
  - destruct v as [|(k, (x, i)) [|? ?]]; try discriminate. apply pbind_ok in H. destruct H as (m & t1 & HM & H). apply pret_ok in H. destruct H as [H _].
    injection H; intros <-. apply md_not. right. inversion HF as [|? ? [_ HK] _]; subst. eapply HK. exact HM.
  - destruct (is_any p _); [|discriminate]. destruct v as [|(k, (x, i)) [|? ?]]; try discriminate.
    inversion HF as [|? ? [_ HK] _]; subst. eapply HK. exact H.
Qed.

Lemma pseq_forall2 {A} (l : list (P A)) : forall t xs t', pseq l t = (Ok xs, t') -> Forall2 (fun p x => exists u u', p u = (Ok x, u')) l xs.
Proof.
  induction l as [|p l IH]; intros t xs t' H; cbn [pseq] in H.
  - apply pret_ok in H. destruct H as [H _]. injection H; intros <-. constructor.
  - apply pbind_ok in H. destruct H as (x & t1 & HX & H). apply pbind_ok in H. destruct H as (ys & t2 & HY & H). apply pret_ok in H. destruct H as [H _].
    injection H; intros <-. constructor; eauto.
Qed.

Lemma string_kids m acc m' : Forall (fun kv => good_kid ("", snd kv)) m -> Forall good_kid acc ->
  map_to_string_keys m acc = Ok m' -> Forall good_kid m'.
Proof.
  revert acc. induction m as [|(k, v) m IH]; intros acc HF HA H; cbn [map_to_string_keys] in H.
  - injection H; intros <-. auto.
  - apply rbind_ok in H. destruct H as (s & _ & H). inversion HF; subst. eapply IH; [auto| |exact H].
    clear H. induction HA as [|(x, y) acc HX HA IHA]; simpl; [constructor; auto|]. destruct (String.eqb s x); constructor; auto.
Qed.

Lemma last_in {A} (l : list A) d : l = [] \/ In (last l d) l.
Proof. induction l as [|a [|b l] IH]; [auto|right; left; auto|]. right. right. destruct IH as [IH|IH]; [discriminate|auto]. Qed.

Theorem interpret_made v : go_value v -> forall p t n t', interpret L ord v p t = (Ok n, t') -> made n.
Proof.
  induction v as [| | | | |l IH|m IH|m IH] using iface_ind'; intros HG p t n t' H; cbn [interpret] in H; try discriminate.
  - inversion HG as [| | | | |? HL| |]; subst. destruct (String.eqb p "").
    + destruct l as [|x [|? ?]]; try discriminate. inversion IH; subst. inversion HL; subst. eauto.
    + unfold handle_array in H. destruct (is_any p _) eqn:EP; [|discriminate]. apply pbind_ok in H. destruct H as (ns & t1 & HN & H).
      apply pret_ok in H. destruct H as [H _]. apply pseq_forall2 in HN.
      assert (HNS : Forall made ns).
      { clear -IH HL HN. revert ns HN. induction IH as [|x l Hx IH IHl]; intros ns HN; inversion HN; subst; constructor.
        - destruct H1 as (u & u' & H1). inversion HL; subst. eapply Hx; eauto.
        - inversion HL; subst. eapply IHl; eauto. }
      unfold node_by_parent in H. destruct (is_any p ["AND"]); [injection H; intros <-; apply md_and; auto|].
      destruct (is_any p ["OR"]); [injection H; intros <-; apply md_or; auto|].
      destruct (is_any p ["NOT"]); [injection H; intros <-; apply md_not|discriminate].
      destruct (last_in ns NNil) as [->|HI]; [left; auto|right]. rewrite Forall_forall in HNS. auto.
  - inversion HG as [| | | | | |? HN HF|]; subst. eapply handle_made; [|exact H]. clear -IH HF.
    induction IH as [|kv m Hk IH IHm]; simpl; constructor; inversion HF; subst; auto. split; [auto|]. cbn [fst snd]. exact (Hk ltac:(assumption)).
  - inversion HG as [| | | | | | |? HN HF]; subst. apply pbind_ok in H. destruct H as (m' & t1 & HM & H). apply pret_ok in HM. destruct HM as [HM ->].
    eapply handle_made; [|exact H]. eapply string_kids; [|constructor|exact HM]. clear -IH HF.
    induction IH as [|kv m Hk IH IHm]; simpl; constructor; inversion HF; subst; auto. split; [auto|]. cbn [fst snd]. exact (Hk ltac:(assumption)).
Qed.
Theorem tree_made v t n t' : go_value v -> parse_conditions_tree L ord v t = (Ok n, t') -> made n.
Proof. intros HG H. eapply interpret_made; eauto. Qed.

Lemma cond_loaded cn c : validate_condition L (condition_from_node L cn) = Ok c -> loaded L (NCond c).
Proof.
  intro HV. pose proof (accepted_fields _ _ HV) as (E1 & E2 & E3 & E4 & E5 & E6 & E7 & E8).
  apply ld_cond with (m := cn_ret cn); auto.
  - apply (proj2 (condition_accepted L _ _ _ (c_ret (condition_from_node L cn)))). exists c. rewrite E1, E2, E3. exact HV.
  - rewrite E4. apply condition_returns.
Qed.
Lemma made_loaded n : made n -> loaded L n.
Proof.
  induction n as [ns IH|ns IH|n IH|q a n IH| | |c|] using node_ind'; intro HM; inversion HM as [? HF|? HF|? HF|? s r ? HI HV HE HR|]; subst.
  - apply ld_and. clear HM. induction IH; constructor; inversion HF; subst; auto.
  - apply ld_or. clear HM. induction IH; constructor; inversion HF; subst; auto.
  - apply ld_not. destruct HF; auto.
  - apply ld_quant; simpl; auto; [destruct HI; auto|apply valid_parent_ok; auto|].
    destruct HR as [->|(m & HN & -> & HF)]; [auto|]. right. exists m. split; auto. split; [apply set_returns|auto].
  - eapply cond_loaded; eauto.
Qed.
Theorem tree_loaded v t n t' : go_value v -> parse_conditions_tree L ord v t = (Ok n, t') -> loaded L n.
Proof. intros HG H. eapply made_loaded, tree_made; eauto. Qed.

(** children of arrays *)
Lemma one_and_key k (e : iface * (string -> P (node L))) p t : In k ["AND"; "OR"; "NOT"] -> In p ["conditionsTree"; "condition"; ""] ->
  handle_map L ord [(k, e)] p t = snd e k t.
Proof. intros [<-|[<-|[<-|[]]]] [<-|[<-|[<-|[]]]]; destruct e; reflexivity. Qed.

Definition loads (v : iface) (n : node L) : Prop := exists t t', parse_conditions_tree L ord v t = (Ok n, t').
Lemma array_of k l p t n t' : In k ["AND"; "OR"; "NOT"] -> In p ["conditionsTree"; "condition"; ""] ->
  interpret L ord (GMapS [(k, GArr l)]) p t = (Ok n, t') ->
  exists ns, Forall2 loads l ns /\ match k with "AND" => n = NAnd ns | "OR" => n = NOr ns | _ => n = NNot (last ns NNil) end.
Proof.
  intros HK HP H. cbn [interpret map] in H. cbn [fst snd] in H. rewrite one_and_key in H by auto. cbn [snd interpret] in H.
  assert (HE : String.eqb k "" = false) by (destruct HK as [<-|[<-|[<-|[]]]]; auto).
  rewrite HE in H. unfold handle_array in H.
  assert (HA : is_any k ["AND"; "OR"; "NOT"] = true) by (apply is_any_in; auto). rewrite HA in H.
  apply pbind_ok in H. destruct H as (ns & t1 & HN & H). apply pret_ok in H. destruct H as [H _]. apply pseq_forall2 in HN.
  exists ns. split.
  - clear -HN. remember (map (fun x => interpret L ord x "") l) as q. revert l Heqq.
    induction HN as [|p x q ns (u & u' & HU) HN IH]; intros [|y l] E; try discriminate; constructor; injection E; intros; subst.
    + exists u, u'. exact HU.
    + apply IH; auto.
  - destruct HK as [<-|[<-|[<-|[]]]]; injection H; intros <-; auto.
Qed.
End WithLib.
