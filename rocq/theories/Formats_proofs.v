(** Proofs about rules written as JSON and as YAML documents. *)
From Coq Require Import List String Ascii Bool Arith ZArith Lia.
From Verif Require Import Base GoStr GoFloat Types Json StrUtils GoStr_facts Validate Prepare Parse Marshal Lifecycle JsonDoc Yaml
  Spec_Tree Spec_Leaf Spec_Load Load_proofs Decode_proofs Spec_Grammar Grammar_proofs Grammar_tree Spec_Accept Spec_Formats.
From Verif Require Spec_Json Json_proofs Spec_JsonDoc JsonDoc_proofs JsonDoc_structs JsonDoc_rules JsonDoc_more Spec_Yaml Yaml_proofs Yaml_rules Yaml_more.
Import ListNotations.
Open Scope string_scope.

Section WithLib.
Variable L : Lib.

(** ** The values of the two documents *)
Lemma object_distinct kvs : NoDup (keys kvs) -> Spec_Json.object kvs = GMapS kvs.
Proof.
  unfold Spec_Json.object. intro HN.
  assert (E : forall l acc : list (string * iface), NoDup (keys (acc ++ l)%list) -> fold_left (fun a kv => upsert (fst kv) (snd kv) a) l acc = (acc ++ l)%list).
  { clear. induction l as [|[k v] l IH]; intros acc HN; cbn [fold_left]; [rewrite app_nil_r; auto|].
    assert (HK : ~ In k (keys acc)).
    { unfold keys in *. rewrite map_app in HN. cbn [map fst] in HN. intro HI. apply NoDup_remove_2 in HN. apply HN. apply in_or_app. auto. }
    cbn [fst snd]. rewrite (Yaml_proofs.upsert_end _ _ _ HK), IH; rewrite <- app_assoc; auto. }
  f_equal. apply (E kvs []). auto.
Qed.

Definition alike_values (j : json) (v v' : iface) : Prop := restyled L v v' /\ (no_object j -> go_fmt L v = go_fmt L v').

Lemma same_values :
  (forall j s, Spec_JsonDoc.spelled j s -> forall y, same_document L j y -> Spec_Yaml.clean y -> plain_values j ->
     exists v v', Spec_Json.text L v s /\ Spec_Yaml.value y v' /\ alike_values j v v') /\
  (forall js s, Spec_JsonDoc.items js s -> forall ys, Forall2 (same_document L) js ys -> Forall Spec_Yaml.clean ys -> Forall plain_values js ->
     exists vs vs', Spec_Json.elements L vs s /\ Forall2 Spec_Yaml.value ys vs' /\ Forall2 (restyled L) vs vs' /\
       (Forall no_object js -> map (go_fmt L) vs = map (go_fmt L) vs')) /\
  (forall m s, Spec_JsonDoc.entries m s -> forall m', Forall2 (fun e f => fst f = YScalar (fst e) (GStr (fst e)) /\ same_document L (snd e) (snd f)) m m' ->
     Forall (fun e => Spec_Yaml.clean (fst e) /\ Spec_Yaml.clean (snd e)) m' ->
     Forall (fun e => (In (fst e) ["value"; "Value"] -> no_object (snd e)) /\ plain_values (snd e)) m ->
     exists kvs es, Spec_Json.members L kvs s /\ Forall2 (fun e f => Spec_Yaml.value (fst e) (fst f) /\ Spec_Yaml.value (snd e) (snd f)) m' es /\ keys kvs = keys m /\
       Forall2 (fun a b => GStr (fst a) = fst b /\ (In (fst a) ["value"; "Value"] -> go_fmt L (snd a) = go_fmt L (snd b)) /\ restyled L (snd a) (snd b)) kvs es).
Proof.
  apply Spec_JsonDoc.spelled_all.
  - intros y HS _ _. inversion HS; subst. exists GNil, GNil. repeat split; try constructor.
  - intros y HS _ _. inversion HS; subst. exists (GBool true), (GBool true). repeat split; try constructor.
  - intros y HS _ _. inversion HS; subst. exists (GBool false), (GBool false). repeat split; try constructor.
  - intros x s HC y HS _ _. inversion HS; subst. exists (GStr x), (GStr x). repeat split; try constructor. auto.
  - intros s HN y HS _ _. inversion HS; subst. exists (GFloat f), v. split; [constructor; auto|]. split; [constructor|]. split.
    + apply rs_number; auto. right. eauto.
    + intros _. auto.
  - intros w HW y HS _ _. inversion HS as [| | | |r l l' HF| ]; subst. inversion HF; subst. exists (GArr []), (GArr []).
    split; [constructor; auto|]. split; [constructor; constructor|]. split; [constructor|auto].
  - intros js s _ IH y HS HC HP. inversion HS as [| | | |r l l' HF| ]; subst. inversion HC; subst. inversion HP; subst.
    destruct (IH l' HF) as (vs & vs' & H1' & H2' & H3' & H4'); auto. exists (GArr vs), (GArr vs').
    split; [constructor; auto|]. split; [constructor; auto|]. split; [apply rs_array; auto|].
    intro HO. inversion HO; subst. cbn [go_fmt]. do 2 f_equal. f_equal. apply H4'. auto.
  - intros w HW y HS _ _. inversion HS as [| | | | |r m m' HF]; subst. inversion HF; subst. exists (GMapS []), (GMapI []).
    split; [constructor; auto|]. split; [constructor; constructor|]. split; [|intro HO; inversion HO]. apply rs_yaml; constructor.
  - intros m s _ IH y HS HC HP. inversion HS as [| | | | |r m0 m' HF]; subst. inversion HC as [| |m0 HC1 HC2 _]; subst. inversion HP; subst.
    destruct (IH m' HF) as (kvs & es & H1' & H2' & H3' & H4'); auto.
    assert (HN : NoDup (keys kvs)).
    { rewrite H3'. destruct HC2 as (ks & HK & HN). assert (E : ks = keys m); [|rewrite <- E; auto].
      clear -HF HK. revert ks HK. induction HF as [|[k j] [k' y] m m' [H1 _] _ IH]; intros ks HK; inversion HK as [|? ? ? ? HT HK']; subst; auto.
      cbn [fst] in *. subst k'. inversion HT; subst. cbn. f_equal; auto. }
    exists (Spec_Json.object kvs), (GMapI es). split; [constructor; auto|]. split; [constructor; auto|]. split; [|intro HO; inversion HO].
    rewrite object_distinct; auto. apply rs_yaml; auto.
  - intros j s w1 w2 HW1 HW2 _ IH ys HF HC HP. inversion HF as [|? y ? ys' HS HF']; subst. inversion HF'; subst. inversion HC; subst. inversion HP; subst.
    destruct (IH y HS) as (v & v' & H1' & H2' & H3' & H4'); auto. exists [v], [v']. split; [constructor; auto|]. repeat split; auto.
    intro HO. inversion HO; subst. cbn. f_equal. auto.
  - intros j s w1 w2 js s' HW1 HW2 _ IH _ IH' ys HF HC HP. inversion HF as [|? y ? ys' HS HF']; subst. inversion HC; subst. inversion HP; subst.
    destruct (IH y HS) as (v & v' & H1' & H2' & H3' & H4'); auto. destruct (IH' ys' HF') as (vs & vs' & H1'' & H2'' & H3'' & H4''); auto.
    exists (v :: vs), (v' :: vs'). split; [constructor; auto|]. repeat split; auto.
    intro HO. inversion HO; subst. cbn. f_equal; auto.
  - intros k ks j s w1 w2 w3 w4 HW1 HW2 HW3 HW4 HK _ IH m' HF HC HP. inversion HF as [|? [k' y] ? ms [E HS] HF']; subst. inversion HF'; subst.
    inversion HC as [|? ? [HC1 HC2] _]; subst. inversion HP as [|? ? [HP1 HP2] _]; subst. cbn [fst snd] in *. subst k'.
    destruct (IH y HS) as (v & v' & H1' & H2' & H3' & H4'); auto. exists [(k, v)], [(GStr k, v')]. split; [apply Spec_Json.mb_one; auto|].
    split; [constructor; [split; cbn; [constructor|auto]|constructor]|]. split; [reflexivity|]. constructor; [|constructor]. cbn. auto.
  - intros k ks j s w1 w2 w3 w4 m s' HW1 HW2 HW3 HW4 HK _ IH _ IH' m' HF HC HP. inversion HF as [|? [k' y] ? ms [E HS] HF']; subst.
    inversion HC as [|? ? [HC1 HC2] HC']; subst. inversion HP as [|? ? [HP1 HP2] HP']; subst. cbn [fst snd] in *. subst k'.
    destruct (IH y HS) as (v & v' & H1' & H2' & H3' & H4'); auto. destruct (IH' ms HF' HC' HP') as (kvs & es & H1'' & H2'' & H3'' & H4'').
    exists ((k, v) :: kvs), ((GStr k, v') :: es). split; [apply Spec_Json.mb_cons; auto|].
    split; [constructor; [split; cbn; [constructor|auto]|auto]|]. split; [cbn; f_equal; auto|]. constructor; [cbn; auto|auto].
Qed.

(** ** The conditions they say *)
Lemma restyled_reads v v' : go_value v -> go_value v' -> restyled L v v' -> forall n, reads L "" v n <-> reads L "" v' n.
Proof.
  intros HG HG' HR n. split; intro H.
  - destruct (grammar_some_order L v n 0 HG H) as (ord & t' & HF & E). rewrite (style_irrelevant L ord v v' 0 HR) in E. eapply grammar_sound; eauto.
  - destruct (grammar_some_order L v' n 0 HG' H) as (ord & t' & HF & E). rewrite <- (style_irrelevant L ord v v' 0 HR) in E. eapply grammar_sound; eauto.
Qed.

Lemma one_inner_restyled v v' : restyled L v v' -> one_inner v -> one_inner v'.
Proof.
  intros HR [H1 H2]. inversion HR as [|? ? HN HN'|l l' HF|m m' HF|m m' HN HF]; subst; [split; auto| | | | ].
  - destruct HN' as [[z ->]|[f ->]]; split; intros; discriminate.
  - split; intros; discriminate.
  - split; [|intros; discriminate]. intros m0 k k' E HI HI'. injection E as <-. apply (H1 m k k' eq_refl).
    + assert (E : keys m = keys m'); [|rewrite E; auto]. clear -HF. induction HF as [|a b m m' [E _] _ IH]; cbn; auto. f_equal; auto.
    + assert (E : keys m = keys m'); [|rewrite E; auto]. clear -HF. induction HF as [|a b m m' [E _] _ IH]; cbn; auto. f_equal; auto.
  - split; [intros; discriminate|]. intros m0 k k' E HI HI'. injection E as <-.
    assert (HK : forall x, In (GStr x) (map fst m') -> In x (keys m)).
    { clear -HF. intros x. induction HF as [|a b m m' [E _] _ IH]; cbn; auto. intros [H|H]; auto. left. rewrite <- E in H. injection H as <-. auto. }
    apply (H1 m k k' eq_refl); auto.
Qed.
Lemma single_restyled : forall v v', restyled L v v' -> single v -> single v'.
Proof.
  fix IH 3. intros v v' HR HS. destruct HR as [v|v v' HN HN'|l l' HF|m m' HF|m m' HN HF].
  - exact HS.
  - destruct HN' as [[z ->]|[f ->]]; constructor.
  - constructor. assert (HA : Forall single l) by (inversion HS; auto). clear HS.
    induction HF as [|a b l l' HR HF IHF]; constructor.
    + inversion HA; subst. eapply IH; eauto.
    + apply IHF. inversion HA; auto.
  - assert (HA : Forall (fun kv => single (snd kv)) m) by (inversion HS; auto).
    assert (HB : forall k x, In (k, x) m -> In k ["ANY"; "ALL"] -> one_inner x) by (inversion HS; auto). clear HS.
    apply sg_mapS.
    + clear HB. induction HF as [|a b l l' [_ [_ HR]] HF IHF]; constructor.
      * inversion HA; subst. eapply IH; eauto.
      * apply IHF. inversion HA; auto.
    + clear HA IH. intros k x HI HK. induction HF as [|[k1 a] [k2 b] l l' [E [_ HR]] HF IHF]; [destruct HI|]. cbn [fst snd] in *. subst k2. destruct HI as [HI|HI].
      * injection HI as -> ->. eapply one_inner_restyled; eauto. eapply HB; eauto. left. reflexivity.
      * apply IHF; auto. intros k' x' HI'. apply HB. right. auto.
  - assert (HA : Forall (fun kv => single (snd kv)) m) by (inversion HS; auto).
    assert (HB : forall k x, In (k, x) m -> In k ["ANY"; "ALL"] -> one_inner x) by (inversion HS; auto). clear HS HN.
    apply sg_mapI.
    + clear HB. induction HF as [|a b l l' [_ [_ HR]] HF IHF]; constructor.
      * inversion HA; subst. eapply IH; eauto.
      * apply IHF. inversion HA; auto.
    + clear HA IH. intros k x HI HK. induction HF as [|[k1 a] [k2 b] l l' [E [_ HR]] HF IHF]; [destruct HI|]. cbn [fst snd] in *. subst k2. destruct HI as [HI|HI].
      * injection HI as -> ->. eapply one_inner_restyled; eauto. eapply HB; eauto. left. reflexivity.
      * apply IHF; auto. intros k' x' HI'. apply HB. right. auto.
Qed.

Lemma text_spaceless v s : Spec_Json.text L v s -> Spec_Json.document L v s.
Proof. intro H. exists "", s, "". repeat split; auto. cbn. rewrite append_nil_r. reflexivity. Qed.
Lemma document_fun v v' s : Spec_Json.document L v s -> Spec_Json.document L v' s -> v' = v.
Proof. rewrite <- !Json_proofs.parse_iff. congruence. Qed.

Section Tree.
Variables (c : json) (y : yaml) (s0 : string).
Hypothesis HSP : Spec_JsonDoc.spelled c s0.
Hypothesis HSD : same_document L c y.
Hypothesis HCL : Spec_Yaml.clean y.
Hypothesis HPV : plain_values c.
Hypothesis HW : ~ In (raw_of c) ["null"; "{}"; "[]"].

Lemma two_values : exists v v', Spec_Json.document L v (raw_of c) /\ Spec_Yaml.value y v' /\ restyled L v v' /\ go_value v /\ go_value v'.
Proof.
  destruct (proj1 same_values c s0 HSP y HSD HCL HPV) as (v & v' & H1 & H2 & H3 & _).
  rewrite <- (JsonDoc_proofs.spelled_raw c s0 HSP) in H1. exists v, v'. apply text_spaceless in H1. repeat split; auto.
  - apply Json_proofs.parse_iff in H1. eapply parsed_go_value; eauto.
  - eapply Yaml_proofs.value_go; eauto.
Qed.
Lemma same_tree x : Spec_JsonDoc.says_tree L c x <-> Spec_Yaml.tree_text L y x.
Proof.
  destruct two_values as (v & v' & H1 & H2 & H3 & H4 & H5). split; intro H.
  - inversion H as [? HI|? w n HI HD HR]; subst; [exfalso; apply HW; right; auto|].
    rewrite (document_fun _ _ _ H1 HD) in HR. apply (Spec_Yaml.tt_some L y v'); auto. apply (restyled_reads v v'); auto.
  - inversion H as [t HI|? w n HD HR]; subst.
    + inversion HSD; subst; [exfalso; apply HW; left; auto|]. match goal with N : number_value _ |- _ => destruct N as [[z E]|[f' E]]; discriminate end.
    + rewrite (Yaml_proofs.value_fun _ _ _ H2 HD) in HR. apply (Spec_JsonDoc.sy_some L c v); auto; [intro HI; apply HW; right; auto|]. apply (restyled_reads v v'); auto.
Qed.
Lemma same_single : (forall v, Spec_Json.document L v (raw_of c) -> single v) -> forall v', Spec_Yaml.value y v' -> single v'.
Proof.
  intros HS w HV. destruct two_values as (v & v' & H1 & H2 & H3 & _). rewrite (Yaml_proofs.value_fun _ _ _ H2 HV). eapply single_restyled; eauto.
Qed.
End Tree.

(** ** Rules *)
Definition same_entries (m : list (string * json)) (m' : list (yaml * yaml)) : Prop :=
  Forall2 (fun e f => fst f = YScalar (fst e) (GStr (fst e)) /\ same_document L (snd e) (snd f)) m m'.
Lemma text_key t k : Spec_Yaml.text (YScalar t (GStr t)) k -> t = k.
Proof. intro H. inversion H; auto. Qed.
Lemma entry_over m m' k j : same_entries m m' -> In (k, j) m -> exists y, In (YScalar k (GStr k), y) m' /\ same_document L j y.
Proof.
  induction 1 as [|[k1 j1] [k2 y] m m' [E HS] _ IH]; intro HI; [destruct HI|]; destruct HI as [H|H]; cbn [fst snd] in *.
  - injection H as -> ->. subst k2. exists y. split; [left; auto|auto].
  - destruct (IH H) as (z & H1 & H2). exists z. split; [right; auto|auto].
Qed.
Lemma entry_back m m' k y : same_entries m m' -> Spec_Yaml.at_key m' k y -> exists j, In (k, j) m /\ same_document L j y.
Proof.
  intros HE (key & HT & HI). induction HE as [|[k1 j1] [k2 y1] m m' [E HS] _ IH]; [destruct HI|]. cbn [fst snd] in *. destruct HI as [H|H].
  - injection H as -> ->. subst key. apply text_key in HT. subst k1. exists j1. split; [left; auto|auto].
  - destruct (IH H) as (j & H1 & H2). exists j. split; [right; auto|auto].
Qed.
Lemma key_over m m' k j : same_entries m m' -> In (k, j) m -> exists y, Spec_Yaml.at_key m' k y /\ same_document L j y.
Proof.
  intros HE HI. destruct (entry_over _ _ _ _ HE HI) as (y & H1 & H2). exists y. split; auto. exists (YScalar k (GStr k)). split; auto. constructor. discriminate.
Qed.
Lemma key_here m k j : In (k, j) m -> Spec_JsonDoc.at_key m k j.
Proof. intro H. exists k. split; auto. apply JsonDoc_structs.same_key_refl. Qed.

Section Opt.
Context {A : Type} (ks : list string) (m : list (string * json)) (m' : list (yaml * yaml)) (k : string) (a : A).
Variables (R : json -> A -> Prop) (R' : yaml -> A -> Prop).
Hypothesis HE : same_entries m m'.
Hypothesis HX : exact m ks.
Hypothesis HK : In k ks.
Lemma opt_over x : (forall j y, In (k, j) m -> Spec_Yaml.at_key m' k y -> same_document L j y -> R j x -> R' y x) -> Spec_JsonDoc.opt m k a R x -> Spec_Yaml.opt m' k a R' x.
Proof.
  intros HR [[HN E]|(j & (key & HS & HI) & H)].
  - left. split; auto. intros y HY. destruct (entry_back _ _ _ _ HE HY) as (j & HI & _). apply (HN j). apply key_here. auto.
  - right. pose proof (HX k key j HK HI HS) as ->. destruct (key_over _ _ _ _ HE HI) as (y & H1 & H2). exists y. split; eauto.
Qed.
Lemma opt_back x : (forall j y, In (k, j) m -> Spec_Yaml.at_key m' k y -> same_document L j y -> R' y x -> R j x) -> Spec_Yaml.opt m' k a R' x -> Spec_JsonDoc.opt m k a R x.
Proof.
  intros HR [[HN E]|(y & HY & H)].
  - left. split; auto. intros j (key & HS & HI). pose proof (HX k key j HK HI HS) as ->. destruct (key_over _ _ _ _ HE HI) as (y & H1 & _). apply (HN y). auto.
  - right. destruct (entry_back _ _ _ _ HE HY) as (j & HI & HS). exists j. split; [apply key_here; auto|eauto].
Qed.
End Opt.

Lemma text_over j y x : same_document L j y -> Spec_JsonDoc.says_text j x -> Spec_Yaml.text y x.
Proof. intros HS H. inversion H; subst; inversion HS; subst; constructor. discriminate. Qed.
Lemma text_back j y x : same_document L j y -> a_text j -> Spec_Yaml.text y x -> Spec_JsonDoc.says_text j x.
Proof. intros HS [->|(raw & s & ->)] H; inversion HS; subst; inversion H; subst; try constructor. congruence. Qed.
Lemma null_over y : same_document L JNull y -> Spec_Yaml.null y.
Proof. intro H. inversion H; subst. eexists; eauto. Qed.
Lemma null_back j y : same_document L j y -> Spec_Yaml.null y -> j = JNull.
Proof. intros H [t ->]. inversion H; subst; auto. match goal with N : number_value _ |- _ => destruct N as [[z E]|[f' E]]; discriminate end. Qed.

Lemma map_over j y es : same_document L j y -> Spec_JsonDoc.says_map j es -> Spec_Yaml.mapping Spec_Yaml.text y es.
Proof.
  intros HS H. inversion H as [|raw m es' HF]; subst.
  - apply null_over in HS. destruct HS as [t ->]. constructor.
  - inversion HS as [| | | | |? ? m' HE]; subst. constructor. clear -HE HF. revert es HF.
    induction HE as [|[k j] [k' y] m m' [E HS] _ IH]; intros es HF; inversion HF as [|? [k2 v] ? ? [H1 H2] HF']; subst; constructor; auto.
    cbn [fst snd] in *. subst k2 k'. split; [constructor; discriminate|]. eapply text_over; eauto.
Qed.
Lemma map_back j y es : same_document L j y -> (forall raw s e, j = JObj raw s -> In e s -> a_text (snd e)) -> Spec_Yaml.mapping Spec_Yaml.text y es -> Spec_JsonDoc.says_map j es.
Proof.
  intros HS HQ H. inversion H as [t|m' es' HF]; subst.
  - rewrite (null_back j _ HS); [constructor|eexists; eauto].
  - inversion HS as [| | | | |raw m ? HE]; subst. specialize (HQ raw m). constructor.
    assert (HQ' : forall e, In e m -> a_text (snd e)) by auto. clear -HE HF HQ'. revert es HF.
    induction HE as [|[k j] [k' y] m m' [E HS] _ IH]; intros es HF; inversion HF as [|? [k2 v] ? ? [H1 H2] HF']; subst; constructor.
    + cbn [fst snd] in *. subst k'. apply text_key in H1. split; auto. eapply text_back; eauto. apply (HQ' (k, j)). left. auto.
    + apply IH; auto. intros e HI. apply HQ'. right. auto.
Qed.

Lemma names_over j y nk tk x : same_document L j y -> (forall raw s, j = JObj raw s -> exact s side_keys) -> In nk side_keys -> In tk side_keys ->
  Spec_JsonDoc.says_names nk tk j x -> Spec_Yaml.name_and_type nk tk y x.
Proof.
  intros HS HX HN HT [[-> ->]|(raw & m & -> & H1 & H2)].
  - left. split; auto. apply null_over. auto.
  - inversion HS as [| | | | |? ? m' HE]; subst. right. exists m'. split; auto.
    split; eapply (opt_over side_keys); eauto; intros j' y' _ _ HS' HR; eapply text_over; eauto.
Qed.
Lemma names_back j y nk tk x : same_document L j y -> (forall raw s, j = JObj raw s -> exact s side_keys) -> In nk side_keys -> In tk side_keys ->
  (forall raw s k x, j = JObj raw s -> In k side_keys -> Spec_JsonDoc.at_key s k x -> a_text x) ->
  Spec_Yaml.name_and_type nk tk y x -> Spec_JsonDoc.says_names nk tk j x.
Proof.
  intros HS HX HN HT HQ [[HY ->]|(m' & -> & H1 & H2)].
  - left. split; auto. eapply null_back; eauto.
  - inversion HS as [| | | | |raw m ? HE]; subst. right. exists raw, m. split; auto.
    split; eapply (opt_back side_keys); eauto; intros j' y' HI _ HS' HR; eapply text_back; eauto; (eapply (HQ raw m); [reflexivity| |apply key_here; exact HI]; auto).
Qed.

Definition exact_rule (m : list (string * json)) : Prop :=
  exact m rule_keys /\ forall k raw s, In k ["sender"; "receiver"; "resource"] -> Spec_JsonDoc.at_key m k (JObj raw s) -> exact s side_keys.
Definition good_tree (m : list (string * json)) (m' : list (yaml * yaml)) : Prop :=
  forall c y, In ("conditions", c) m -> Spec_Yaml.at_key m' "conditions" y -> same_document L c y -> forall x, Spec_JsonDoc.says_tree L c x <-> Spec_Yaml.tree_text L y x.
Definition quoted_rule (m : list (string * json)) : Prop :=
  (forall k x, In k text_keys -> Spec_JsonDoc.at_key m k x -> a_text x) /\
  (forall k raw s k' x, In k ["sender"; "receiver"; "resource"] -> Spec_JsonDoc.at_key m k (JObj raw s) -> In k' side_keys -> Spec_JsonDoc.at_key s k' x -> a_text x) /\
  (forall raw s e, Spec_JsonDoc.at_key m "metadata" (JObj raw s) -> In e s -> a_text (snd e)).

Ltac listed := solve [cbn; repeat (first [left; reflexivity | right])].
Lemma rule_over m m' r : same_entries m m' -> exact_rule m -> good_tree m m' -> Spec_JsonDoc.says_rule L m r -> Spec_Yaml.rule_says L m' r.
Proof.
  intros HE [HX HX'] HT [H1 H2 H3 H4 H5 H6 H7 H8 H9 H10].
  assert (TX : forall k x, In k rule_keys -> Spec_JsonDoc.opt m k "" Spec_JsonDoc.says_text x -> Spec_Yaml.opt m' k "" Spec_Yaml.text x).
  { intros k x HK. eapply (opt_over rule_keys); eauto. intros j y _ _ HS. apply text_over. auto. }
  assert (SD : forall k nk tk x, In k rule_keys -> In k ["sender"; "receiver"; "resource"] -> In nk side_keys -> In tk side_keys ->
     Spec_JsonDoc.opt m k ("", "") (Spec_JsonDoc.says_names nk tk) x -> Spec_Yaml.opt m' k ("", "") (Spec_Yaml.name_and_type nk tk) x).
  { intros k nk tk x HK HK' HN HT'.
    eapply (opt_over rule_keys); eauto. intros j y HI _ HS. apply names_over; auto. intros raw s ->. apply (HX' k raw s); auto. apply key_here. auto. }
  constructor; try (apply TX; [listed|assumption]); try (apply SD; [listed|listed|listed|listed|assumption]).
  - revert H7. eapply (opt_over rule_keys); eauto; [listed|]. intros j y HI HY HS. apply HT; auto.
  - revert H9. eapply (opt_over rule_keys); eauto; [listed|]. intros j y _ _ HS. apply map_over. auto.
Qed.
Lemma rule_back m m' r : same_entries m m' -> exact_rule m -> good_tree m m' -> quoted_rule m -> Spec_Yaml.rule_says L m' r -> Spec_JsonDoc.says_rule L m r.
Proof.
  intros HE [HX HX'] HT [HQ1 [HQ2 HQ3]] [H1 H2 H3 H4 H5 H6 H7 H8 H9 H10].
  assert (TX : forall k x, In k rule_keys -> In k text_keys -> Spec_Yaml.opt m' k "" Spec_Yaml.text x -> Spec_JsonDoc.opt m k "" Spec_JsonDoc.says_text x).
  { intros k x HK HK'. eapply (opt_back rule_keys); eauto. intros j y HI _ HS. apply text_back; auto. apply (HQ1 k); auto. apply key_here. auto. }
  assert (SD : forall k nk tk x, In k rule_keys -> In k ["sender"; "receiver"; "resource"] -> In nk side_keys -> In tk side_keys ->
     Spec_Yaml.opt m' k ("", "") (Spec_Yaml.name_and_type nk tk) x -> Spec_JsonDoc.opt m k ("", "") (Spec_JsonDoc.says_names nk tk) x).
  { intros k nk tk x HK HK' HN HT'. eapply (opt_back rule_keys); eauto. intros j y HI _ HS. apply names_back; auto.
    - intros raw s ->. apply (HX' k raw s); auto. apply key_here. auto.
    - intros raw s k' x' -> HK2 HA. apply (HQ2 k raw s k'); auto. apply key_here. auto. }
  constructor; try (apply TX; [listed|listed|assumption]); try (apply SD; [listed|listed|listed|listed|assumption]).
  - revert H7. eapply (opt_back rule_keys); eauto; [listed|]. intros j y HI HY HS. apply HT; auto.
  - revert H9. eapply (opt_back rule_keys); eauto; [listed|]. intros j y HI _ HS. apply map_back; auto. intros raw s e -> HI'. apply (HQ3 raw s); auto. apply key_here. auto.
Qed.

(** ** Documents *)
Lemma parts_spelled :
  (forall j s, Spec_JsonDoc.spelled j s -> (forall raw l, j = JArr raw l -> Forall (fun x => exists s', Spec_JsonDoc.spelled x s') l) /\
     (forall raw m, j = JObj raw m -> Forall (fun e => exists s', Spec_JsonDoc.spelled (snd e) s') m)) /\
  (forall js s, Spec_JsonDoc.items js s -> Forall (fun x => exists s', Spec_JsonDoc.spelled x s') js) /\
  (forall m s, Spec_JsonDoc.entries m s -> Forall (fun e => exists s', Spec_JsonDoc.spelled (snd e) s') m).
Proof.
  apply Spec_JsonDoc.spelled_all; intros; try (split; intros; discriminate); try (constructor; cbn; eauto; fail).
  - split; [|intros; discriminate]. intros raw l E. injection E as _ <-. constructor.
  - split; [|intros; discriminate]. intros raw l E. injection E as _ <-. auto.
  - split; [intros; discriminate|]. intros raw l E. injection E as _ <-. constructor.
  - split; [intros; discriminate|]. intros raw l E. injection E as _ <-. auto.
Qed.
Lemma element_spelled raw l s x : Spec_JsonDoc.spelled (JArr raw l) s -> In x l -> exists s', Spec_JsonDoc.spelled x s'.
Proof. intros H HI. apply (proj1 parts_spelled) in H. destruct H as [H _]. specialize (H raw l eq_refl). rewrite Forall_forall in H. auto. Qed.
Lemma entry_spelled raw m s k x : Spec_JsonDoc.spelled (JObj raw m) s -> In (k, x) m -> exists s', Spec_JsonDoc.spelled x s'.
Proof. intros H HI. apply (proj1 parts_spelled) in H. destruct H as [_ H]. specialize (H raw m eq_refl). rewrite Forall_forall in H. apply (H (k, x)). auto. Qed.
Lemma element_clean l y : Spec_Yaml.clean (YSeq l) -> In y l -> Spec_Yaml.clean y.
Proof. intros H HI. inversion H; subst. rewrite Forall_forall in *. auto. Qed.
Lemma entry_clean m k y : Spec_Yaml.clean (YMap m) -> Spec_Yaml.at_key m k y -> Spec_Yaml.clean y.
Proof. intros H (key & _ & HI). inversion H as [| |? HF _ _]; subst. rewrite Forall_forall in HF. apply (HF (key, y)). auto. Qed.
Lemma element_values raw l x : plain_values (JArr raw l) -> In x l -> plain_values x.
Proof. intros H HI. inversion H; subst. rewrite Forall_forall in *. auto. Qed.
Lemma entry_values raw m k x : plain_values (JObj raw m) -> In (k, x) m -> plain_values x.
Proof. intros H HI. inversion H as [| | | | |? ? HF]; subst. rewrite Forall_forall in HF. apply (HF (k, x)). auto. Qed.

Section Document.
Variables (j : json) (s0 : string) (y : yaml).
Hypothesis HSP : Spec_JsonDoc.spelled j s0.
Hypothesis HSD : same_document L j y.
Hypothesis HCL : Spec_Yaml.clean y.
Hypothesis HPV : plain_values j.
Hypothesis HEX : exact_keys j.
Hypothesis HCW : conditions_written j.

(** the rules of the two, side by side *)
Lemma pair_of_rules raw d raw' l d' l' : j = JObj raw d -> In ("rules", JArr raw' l) d -> y = YMap d' -> Spec_Yaml.at_key d' "rules" (YSeq l') -> Forall2 (same_document L) l l' ->
  forall raw'' m m', In (JObj raw'' m) l -> In (YMap m') l' -> same_entries m m' -> exact_rule m /\ good_tree m m'.
Proof.
  intros -> HI -> HY HF raw'' m m' HM HM' HE.
  assert (HR : Spec_JsonDoc.rule_in (JObj raw d) m) by (exists raw, d, raw', l, raw''; split; auto; split; auto; apply key_here; auto).
  split; [apply (proj2 HEX); auto|]. intros c z HC HZ HS.
  destruct (entry_spelled _ _ _ _ _ HSP HI) as (s1 & SP1). destruct (element_spelled _ _ _ _ SP1 HM) as (s2 & SP2). destruct (entry_spelled _ _ _ _ _ SP2 HC) as (s3 & SP3).
  apply (same_tree c z s3); auto.
  - apply (entry_clean m' "conditions"); auto. apply (element_clean l'); auto. apply (entry_clean d' "rules"); auto.
  - apply (entry_values raw'' m "conditions"); auto. apply (element_values raw' l); auto. apply (entry_values raw d "rules"); auto.
  - apply HCW. exists m. split; auto. apply key_here. auto.
Qed.
Theorem says_over rs : Spec_JsonDoc.says_rules L j rs -> Spec_Yaml.rules_text L y rs.
Proof.
  intros [[E ->]|(raw & d & E & H)]; [left; split; auto; apply null_over; rewrite <- E; auto|].
  pose proof HSD as HD. rewrite E in HD. inversion HD as [| | | | |? ? d' HE E1 E2]; subst raw0 m. right. exists d'. split; auto.
  revert H. eapply (opt_over ["rules"]); eauto; [eapply (proj1 HEX); eauto|left; auto|]. intros x z HI HZ HS HL.
  inversion HL as [|raw' l rs' HF]; subst x; [apply null_over in HS; destruct HS as [t ->]; inversion HL; constructor|]. subst rs'.
  inversion HS as [| | | |? ? l' HF'| ]; subst raw0 l0 z. constructor.
  assert (HP := pair_of_rules raw d raw' l d' l' E HI (eq_sym E2) HZ HF'). clear -HF HF' HP.
  assert (HP' : forall raw'' m m', In (JObj raw'' m) l -> In (YMap m') l' -> same_entries m m' -> exact_rule m /\ good_tree m m') by exact HP. clear HP.
  revert rs HF. induction HF' as [|a b l l' HS _ IH]; intros rs HF; inversion HF as [|? r ? rs' HO HF2]; subst; constructor.
  - destruct HO as [[-> HN]|(raw1 & m & -> & HR)]; [left; split; [apply null_over; auto|exact HN]|].
    inversion HS as [| | | | |? ? m' HE']; subst. right. exists m'. split; auto. destruct (HP' raw1 m m') as [H1 H2]; [left; auto|left; auto|auto|]. eapply rule_over; eauto.
  - apply IH; auto. intros raw1 m m' H1 H2. apply (HP' raw1); right; auto.
Qed.
Theorem says_back rs : quoted_texts j -> Spec_Yaml.rules_text L y rs -> Spec_JsonDoc.says_rules L j rs.
Proof.
  intros HQ [[E ->]|(d' & E & H)]; [left; split; auto; eapply null_back; eauto|].
  pose proof HSD as HD. rewrite E in HD. inversion HD as [| | | | |raw d ? HE E1 E2]; subst m'. right. exists raw, d. split; auto.
  revert H. eapply (opt_back ["rules"]); eauto; [eapply (proj1 HEX); eauto|left; auto|]. intros x z HI HZ HS HL.
  inversion HL as [t|l' rs' HF]; subst z; [rewrite (null_back x _ HS); [constructor|eexists; eauto]|]. subst rs'.
  inversion HS as [| | | |raw' l ? HF'| ]; subst l'0 x. constructor.
  assert (HP := pair_of_rules raw d raw' l d' l' (eq_sym E1) HI E HZ HF').
  assert (HQ' : forall raw'' m, In (JObj raw'' m) l -> quoted_rule m).
  { intros raw'' m HM. apply HQ. exists raw, d, raw', l, raw''. split; auto. split; auto. apply key_here. auto. }
  clear -HF HF' HP HQ'.
  assert (HP' : forall raw'' m m', In (JObj raw'' m) l -> In (YMap m') l' -> same_entries m m' -> exact_rule m /\ good_tree m m') by exact HP. clear HP.
  revert rs HF. induction HF' as [|a b l l' HS _ IH]; intros rs HF; inversion HF as [|? r ? rs' HO HF2]; subst; constructor.
  - destruct HO as [[HN HN']|(m' & -> & HR)]; [left; split; [eapply null_back; eauto|exact HN']|].
    inversion HS as [| | | | |raw1 m ? HE']; subst. right. exists raw1, m. split; auto. destruct (HP' raw1 m m') as [H1 H2]; [left; auto|left; auto|auto|]. eapply rule_back; eauto. eapply HQ'. left. eauto.
  - apply IH; auto; [intros raw1 m H1; apply (HQ' raw1); right; auto|]. intros raw1 m m' H1 H2. apply (HP' raw1); right; auto.
Qed.
Lemma plain_over : Spec_JsonDoc.plain_document j -> Spec_Yaml.plain_rules y.
Proof.
  intros HP d' l' m' E HR HM. pose proof HSD as HD. rewrite E in HD. inversion HD as [| | | | |raw d ? HE E1 E2]; subst m'0.
  destruct (entry_back _ _ _ _ HE HR) as (x & HI & HS). inversion HS as [| | | |raw' l ? HF| ]; subst l'0 x.
  assert (HX : exists raw'' m, In (JObj raw'' m) l /\ same_entries m m').
  { clear -HF HM. induction HF as [|a b l l' H _ IH]; [destruct HM|]. destruct HM as [->|HM].
    - inversion H as [| | | | |raw m ? HE]; subst. exists raw, m. split; [left; auto|auto].
    - destruct (IH HM) as (raw & m & H1 & H2). exists raw, m. split; [right; auto|auto]. }
  destruct HX as (raw'' & m & HM' & HE').
  destruct (HP m) as (H1 & H2 & H3). { exists raw, d, raw', l, raw''. split; auto. split; auto. apply key_here. auto. }
  assert (HN : forall k a b, same_entries a b -> Spec_JsonDoc.no_key a k -> Spec_Yaml.no_key b k).
  { intros k a b HAB HA z HZ. destruct (entry_back _ _ _ _ HAB HZ) as (w & HW & _). apply (HA w). apply key_here. auto. }
  split; [eapply HN; eauto|]. split; [eapply HN; eauto|].
  assert (HSi : forall k, In k ["sender"; "receiver"; "resource"] -> forall z, Spec_Yaml.at_key m' k z -> Spec_Yaml.side_plain z).
  { intros k HK z HZ q ->. destruct (entry_back _ _ _ _ HE' HZ) as (w & HW & HSw). inversion HSw as [| | | | |raw1 mq ? HEq]; subst.
    eapply HN; eauto. eapply H3; eauto. apply key_here. eauto. }
  split; intros z HZ; [apply (HSi "sender")|apply (HSi "receiver")]; auto; cbn; auto.
Qed.
Lemma single_over : Spec_JsonDoc.single_trees L j -> Spec_Yaml.single_conditions y.
Proof.
  intros HSG z v (d' & l' & m' & E & HR & HM & HC) HV. pose proof HSD as HD. rewrite E in HD. inversion HD as [| | | | |raw d ? HE E1 E2]; subst m'0.
  destruct (entry_back _ _ _ _ HE HR) as (x & HI & HS). inversion HS as [| | | |raw' l ? HF| ]; subst l'0 x.
  assert (HX : exists raw'' m, In (JObj raw'' m) l /\ same_entries m m').
  { clear -HF HM. induction HF as [|a b l l' H _ IH]; [destruct HM|]. destruct HM as [->|HM].
    - inversion H as [| | | | |raw m ? HE]; subst. exists raw, m. split; [left; auto|auto].
    - destruct (IH HM) as (raw & m & H1 & H2). exists raw, m. split; [right; auto|auto]. }
  destruct HX as (raw'' & m & HM' & HE'). destruct (entry_back _ _ _ _ HE' HC) as (c & HIc & HSc).
  assert (HSP' := HSP). assert (HPV' := HPV). assert (HCL' := HCL). rewrite <- E1 in HSP', HPV'. rewrite E in HCL'.
  destruct (entry_spelled _ _ _ _ _ HSP' HI) as (s1 & SP1). destruct (element_spelled _ _ _ _ SP1 HM') as (s2 & SP2). destruct (entry_spelled _ _ _ _ _ SP2 HIc) as (s3 & SP3).
  apply (same_single c z s3); auto.
  - apply (entry_clean m' "conditions"); auto. apply (element_clean l'); auto. apply (entry_clean d' "rules"); auto.
  - apply (entry_values raw'' m "conditions"); auto. apply (element_values raw' l); auto. apply (entry_values raw d "rules"); auto.
  - intros w HW. apply (HSG c w); auto. exists m. split; [|apply key_here; auto]. exists raw, d, raw', l, raw''. split; auto. split; auto. apply key_here. auto.
Qed.
End Document.

Theorem same_rules ord ord' re_text exp_in re_text' s j y t u rs : fair ord -> fair ord' -> Spec_JsonDoc.is_document j s -> same_document L j y ->
  Spec_JsonDoc.distinct_rules j -> Spec_JsonDoc.plain_document j -> Spec_JsonDoc.single_trees L j -> exact_keys j -> plain_values j -> conditions_written j -> Spec_Yaml.clean y ->
  ((exists t', json_rules L ord re_text exp_in s t = (Ok rs, t')) -> exists u', read_rules L ord' re_text' y u = (Ok rs, u')) /\
  (quoted_texts j -> (exists u', read_rules L ord' re_text' y u = (Ok rs, u')) -> exists t', json_rules L ord re_text exp_in s t = (Ok rs, t')).
Proof.
  intros HF HF' HJ HSD HC HP HS HX HV HW HY. pose proof HJ as (w1 & s0 & w2 & _ & _ & HSP & _).
  assert (HP' : Spec_Yaml.plain_rules y) by (eapply plain_over; eauto). assert (HS' : Spec_Yaml.single_conditions y) by (eapply single_over; eauto).
  rewrite (JsonDoc_more.rules_exact L ord re_text exp_in s j t rs HF HJ HC HP HS), (Yaml_more.rules_exact L ord' re_text' y u rs HF' HY HP' HS').
  split; [intros [H1 H2]|intros HQ [H1 H2]]; split; auto.
  - eapply says_over; eauto.
  - eapply says_back; eauto.
Qed.
End WithLib.
