(** The YAML decoder: values, texts, structs. *)
From Coq Require Import List String Ascii Bool Arith ZArith Floats.SpecFloat Lia.
From Verif Require Import Base GoStr GoFloat Types Json StrUtils Validate Prepare Parse Marshal Lifecycle Lifecycle_proofs Messages Fields Yaml
  Spec_Tree Spec_Load Load_proofs Spec_Grammar Spec_Fields Spec_Yaml.
Import ListNotations.
Open Scope string_scope.
Local Arguments String.prefix : simpl never.

Lemma yaml_ind' (Q : yaml -> Prop) :
  (forall t v, Q (YScalar t v)) -> (forall l, Forall Q l -> Q (YSeq l)) ->
  (forall m, Forall (fun e => Q (fst e) /\ Q (snd e)) m -> Q (YMap m)) -> forall y, Q y.
Proof.
  intros H1 H2 H3. fix IH 1. intros [t v|l|m].
  - apply H1.
  - apply H2. induction l; constructor; auto.
  - apply H3. induction m as [|[k y] m IHm]; constructor; auto.
Qed.

(** ** Texts *)
Lemma text_iff y old s : decode_string y old = (s, false) <-> text y s.
Proof.
  split.
  - destruct y as [t v|l|m]; cbn; try discriminate. intro H. destruct v; cbn in H; injection H as <-; constructor; discriminate.
  - intro H. destruct H as [t|t v HV]; cbn; [reflexivity|]. destruct v; try reflexivity. congruence.
Qed.
Lemma text_fun y s s' : text y s -> text y s' -> s' = s.
Proof. intros H H'. apply (text_iff y "") in H, H'. congruence. Qed.
Lemma text_exists t v : exists s, text (YScalar t v) s.
Proof. destruct v; eexists; try (apply tx_some; discriminate). constructor. Qed.
Lemma string_bad y old : snd (decode_string y old) = true <-> ~ exists s, text y s.
Proof.
  destruct y as [t v|l|m]; cbn; split; intro H; try discriminate.
  - exfalso. apply H. apply text_exists.
  - intros [s HS]. inversion HS.
  - reflexivity.
  - intros [s HS]. inversion HS.
  - reflexivity.
Qed.

(** ** Values *)
Lemma all_some_iff {A} (l : list (option A)) xs : all_some l = Some xs <-> l = map Some xs.
Proof.
  revert xs. induction l as [|x l IH]; intro xs; cbn [all_some].
  - split; [intro H; injection H as <-; reflexivity|]. destruct xs; [reflexivity|discriminate].
  - destruct x as [a|].
    + destruct (all_some l) as [ys|] eqn:E.
      * split; [intro H; injection H as <-; cbn; f_equal; apply IH; reflexivity|]. destruct xs as [|x xs]; [discriminate|]. cbn. intro H. injection H as <- H. apply IH in H. injection H as <-. reflexivity.
      * split; [discriminate|]. destruct xs as [|x xs]; [discriminate|]. cbn. intro H. injection H as <- H. apply IH in H. discriminate.
    + split; [discriminate|]. destruct xs; discriminate.
Qed.

Lemma key_eqb_same a b : scalar_value a -> scalar_value b -> key_eqb a b = true -> same_key a b \/ (a = GFloat S754_nan /\ b = GFloat S754_nan).
Proof.
  intros HA HB H. destruct a, b; cbn in H; try discriminate; try (left; left; reflexivity).
  - apply Bool.eqb_prop in H. subst. left; left; reflexivity.
  - apply Z.eqb_eq in H. subst. left; left; reflexivity.
  - apply orb_true_iff in H. destruct H as [H|H]; [left; right; eauto|]. apply andb_true_iff in H. destruct H as [H1 H2].
    destruct f; try discriminate. destruct f0; try discriminate. right. split; reflexivity.
  - apply String.eqb_eq in H. subst. left; left; reflexivity.
Qed.
Lemma same_key_eqb a b : scalar_value a -> ~ same_key a b -> key_eqb a b = false.
Proof.
  intros HA HN. destruct (key_eqb a b) eqn:E; [|reflexivity]. exfalso. apply HN.
  destruct a, b; cbn in E; try discriminate; try (left; reflexivity).
  - apply Bool.eqb_prop in E. subst. left; reflexivity.
  - apply Z.eqb_eq in E. subst. left; reflexivity.
  - apply orb_true_iff in E. destruct E as [E|E]; [right; eauto|]. apply andb_true_iff in E. destruct E as [E1 E2]. destruct f; try discriminate. destruct f0; try discriminate. left; reflexivity.
  - apply String.eqb_eq in E. subst. left; reflexivity.
Qed.

Lemma put_new k v m : Forall (fun e => key_eqb (fst e) k = false) m -> put k v m = (m ++ [(k, v)])%list.
Proof. induction 1 as [|(k', v') m H _ IH]; cbn in *; [reflexivity|]. rewrite H, IH. reflexivity. Qed.
Lemma puts_new es : forall acc, Forall (fun e => scalar_value (fst e)) (acc ++ es) ->
  ForallOrdPairs (fun a b => ~ same_key a b) (map fst (acc ++ es)%list) ->
  fold_left (fun acc e => put (fst e) (snd e) acc) es acc = (acc ++ es)%list.
Proof.
  induction es as [|(k, v) es IH]; intros acc HS HD; cbn [fold_left]; [rewrite app_nil_r; reflexivity|].
  cbn [fst snd]. rewrite put_new.
  - rewrite IH; rewrite <- app_assoc; auto.
  - apply Forall_forall. intros (k', v') HI. cbn [fst]. rewrite Forall_forall in HS.
    apply same_key_eqb; [apply (HS (k', v')); apply in_or_app; auto|].
    apply in_split in HI. destruct HI as (l1 & l2 & ->). clear -HD. rewrite <- !app_assoc in HD. rewrite map_app in HD. cbn in HD.
    induction (map fst l1) as [|x l IHl]; cbn in HD; inversion HD as [|? ? HF HD']; subst; auto.
    rewrite Forall_forall in HF. apply HF. rewrite map_app. apply in_or_app. right. left. reflexivity.
Qed.

Lemma ordered_distinct l : ForallOrdPairs (fun a b => ~ same_key a b) l -> NoDup l.
Proof.
  induction 1 as [|a l HF _ IH]; constructor; auto. intro HI. rewrite Forall_forall in HF. apply (HF a HI). left. reflexivity.
Qed.
Lemma scalar_go v : scalar_value v -> go_value v.
Proof. destruct v; cbn; intro H; try destruct H; constructor. Qed.
Lemma scalar_not_collection v : scalar_value v -> is_collection v = false.
Proof. destruct v; cbn; intro H; try destruct H; reflexivity. Qed.

Definition decodes (y : yaml) : Prop := exists v, decode_any y = Some v /\ value y v /\ go_value v.
Lemma clean_key (e : yaml * yaml) k : clean (fst e) -> text (fst e) k -> exists t v, fst e = YScalar t v /\ scalar_value v.
Proof. intros HC HT. destruct HT as [t|t v HV]; inversion HC; subst; eauto. Qed.
Lemma clean_entries m : Forall (fun e => clean (fst e) /\ decodes (snd e)) m -> distinct_texts m ->
  exists es, all_some (map (fun e => match decode_any (fst e), decode_any (snd e) with
                                  | Some k, Some v => if is_collection k then None else Some (k, v)
                                  | _, _ => None
                                  end) m) = Some es /\
    Forall2 (fun e f => value (fst e) (fst f) /\ value (snd e) (snd f)) m es /\ map fst es = key_values m /\
    Forall (fun f => scalar_value (fst f)) es /\ Forall (fun f => go_value (snd f)) es.
Proof.
  intros HF (ks & HK & _). revert ks HK. induction HF as [|e m [HC HD] _ IH]; intros ks HK.
  - exists []. cbn. repeat split; constructor.
  - inversion HK as [|? k ? ks' HT HK']; subst. destruct (IH ks' HK') as (es & E1 & E2 & E3 & E4 & E5).
    destruct (clean_key e k HC HT) as (t & kv & EK & HS). destruct HD as (v & D1 & D2 & D3). destruct e as [key y]. cbn [fst snd] in *. subst key.
    exists ((kv, v) :: es). cbn [map all_some fst snd]. cbn [decode_any]. rewrite D1, (scalar_not_collection kv HS). cbn. rewrite E1. cbn.
    repeat split; auto.
    + constructor; auto. cbn. split; [constructor|auto].
    + unfold key_values in *. cbn. rewrite E3. reflexivity.
Qed.
Lemma clean_decodes y : clean y -> decodes y.
Proof.
  induction y as [t v|l IH|m IH] using yaml_ind'; intro HC; inversion HC as [? ? HS|? HL|? HM HT HD]; subst.
  - exists v. split; [reflexivity|]. split; [constructor|apply scalar_go; auto].
  - assert (H : exists vs, all_some (map decode_any l) = Some vs /\ Forall2 value l vs /\ Forall go_value vs).
    { clear HC. induction l as [|y l IHl]; [exists []; cbn; repeat split; constructor|]. inversion IH as [|? ? I1 I2]; inversion HL as [|? ? L1 L2]; subst.
      destruct (IHl I2 L2) as (vs & E1 & E2 & E3). destruct (I1 L1) as (v & D1 & D2 & D3). exists (v :: vs). cbn. rewrite D1, E1. cbn. repeat split; constructor; auto. }
    destruct H as (vs & E1 & E2 & E3). exists (GArr vs). cbn. rewrite E1. cbn. repeat split; constructor; auto.
  - assert (HF : Forall (fun e => clean (fst e) /\ decodes (snd e)) m).
    { rewrite Forall_forall in *. intros e HE. destruct (IH e HE), (HM e HE). split; auto. }
    destruct (clean_entries m HF HT) as (es & E1 & E2 & E3 & E4 & E5).
    exists (GMapI es). cbn [decode_any]. rewrite E1. rewrite puts_new; cbn [app]; auto; [|rewrite E3; auto].
    repeat split; [constructor; auto|]. constructor; auto. rewrite E3. apply ordered_distinct. auto.
Qed.
Lemma value_fun y : forall v v', value y v -> value y v' -> v' = v.
Proof.
  induction y as [t v|l IH|m IH] using yaml_ind'; intros w w' H H'; inversion H as [|? vs HF|? es HF]; inversion H' as [|? vs' HF'|? es' HF']; subst; auto.
  - f_equal. clear H H'. revert vs vs' HF HF'. induction IH as [|y l IY _ IHl]; intros vs vs' HF HF'; inversion HF; inversion HF'; subst; auto. f_equal; eauto.
  - f_equal. clear H H'. revert es es' HF HF'. induction IH as [|[k y] m [IK IY] _ IHm]; intros es es' HF HF'; inversion HF as [|? [a b] ? ? [H1 H2]]; inversion HF' as [|? [a' b'] ? ? [H1' H2']]; subst; auto.
    cbn [fst snd] in *. f_equal; [|eauto]. f_equal; eauto.
Qed.
Lemma any_iff y v : clean y -> decode_any y = Some v <-> value y v.
Proof.
  intro HC. destruct (clean_decodes y HC) as (w & E & HV & _). split; intro H.
  - rewrite E in H. injection H as <-. auto.
  - rewrite (value_fun y v w H HV) in E. auto.
Qed.
Lemma value_go y v : clean y -> value y v -> go_value v.
Proof. intros HC HV. destruct (clean_decodes y HC) as (w & E & HW & HG). rewrite (value_fun y w v HW HV). auto. Qed.

(** ** Maps and slices *)
Lemma upsert_end {A} k (a : A) l : ~ In k (keys l) -> upsert k a l = (l ++ [(k, a)])%list.
Proof. apply upsert_new. Qed.
Section Elem.
Context {A : Type} (elem : yaml -> A * bool) (R : yaml -> A -> Prop).
Lemma entries_iff (HE : forall y a, elem y = (a, false) <-> R y a) m : forall old es, NoDup (keys old ++ map fst es)%list ->
  Forall2 (fun e f => text (fst e) (fst f) /\ R (snd e) (snd f)) m es -> decode_entries elem m old = ((old ++ es)%list, false).
Proof.
  induction m as [|[k y] m IH]; intros old es HN HF; inversion HF as [|? [k' a] ? es' [H1 H2] HF']; subst; cbn [decode_entries].
  - rewrite app_nil_r. reflexivity.
  - cbn [fst snd] in *. apply (text_iff k "") in H1. rewrite H1. apply HE in H2. rewrite H2. cbn in HN.
    rewrite upsert_end.
    + rewrite (IH _ es'); [rewrite <- app_assoc; reflexivity| |auto]. unfold keys in *. rewrite map_app, <- app_assoc. exact HN.
    + intro HI. apply NoDup_remove_2 in HN. apply HN. apply in_or_app. auto.
Qed.
Lemma entries_only (HE : forall y a, elem y = (a, false) <-> R y a) m : forall old r, decode_entries elem m old = (r, false) -> exists es, Forall2 (fun e f => text (fst e) (fst f) /\ R (snd e) (snd f)) m es.
Proof.
  induction m as [|[k y] m IH]; intros old r H; cbn [decode_entries] in H; [exists []; constructor|].
  destruct (decode_string k "") as [s [|]] eqn:ES; [discriminate|]. destruct (elem y) as [a [|]] eqn:EA; [discriminate|].
  destruct (IH _ _ H) as [es HF]. exists ((s, a) :: es). constructor; auto. cbn. split; [apply (text_iff k ""); auto|apply HE; auto].
Qed.
Lemma texts_map m es ks : Forall2 (fun e f => text (fst e) (fst f) /\ R (snd e) (snd f)) m es -> Forall2 (fun e k => text (fst e) k) m ks -> map fst es = ks.
Proof.
  intro HF. revert ks. induction HF as [|e f m es [H1 H2] _ IH]; intros ks HK; inversion HK as [|? ? ? ? H1']; subst; cbn; auto. f_equal; [eapply text_fun; eauto|auto].
Qed.
Lemma map_iff (HE : forall y a, elem y = (a, false) <-> R y a) y a : clean y -> decode_map elem y [] = (a, false) <-> mapping R y a.
Proof.
  intro HC. split.
  - destruct y as [t v|l|m]; cbn; try discriminate.
    + destruct v; try discriminate. intro H. injection H as <-. constructor.
    + intro H. destruct (entries_only HE m _ _ H) as [es HF]. inversion HC as [| |? _ (ks & HK & HN) _]; subst.
      rewrite (entries_iff HE m [] es) in H; auto; [|cbn; rewrite (texts_map m es ks); auto]. injection H as <-. constructor. auto.
  - intro H. destruct H as [t|m es HF]; [reflexivity|]. cbn. inversion HC as [| |? _ (ks & HK & HN) _]; subst.
    rewrite (entries_iff HE m [] es); auto. cbn. rewrite (texts_map m es ks); auto.
Qed.
Lemma items_iff (HE : forall y a, elem y = (a, false) <-> R y a) l : forall xs, decode_items elem l = (xs, false) <-> Forall2 R l xs.
Proof.
  induction l as [|y l IH]; intro xs; cbn [decode_items].
  - split; [intro H; injection H as <-; constructor|intro H; inversion H; reflexivity].
  - destruct (elem y) as [a [|]] eqn:EA; destruct (decode_items elem l) as [al bad] eqn:EL.
    + split; [discriminate|]. intro H. inversion H as [|? x ? xs' HX _]; subst. apply HE in HX. congruence.
    + split.
      * intro H. injection H as <- ->. constructor; [apply HE; auto|apply IH; reflexivity].
      * intro H. inversion H as [|? x ? xs' HX HF]; subst. apply HE in HX. rewrite EA in HX. injection HX as <-. apply IH in HF. injection HF as -> ->. reflexivity.
Qed.
Lemma slice_iff (HE : forall y a, elem y = (a, false) <-> R y a) y old a : decode_slice elem y old = (a, false) <-> listing R y a.
Proof.
  split.
  - destruct y as [t v|l|m]; cbn; try discriminate.
    + destruct v; try discriminate. intro H. injection H as <-. constructor.
    + intro H. apply (items_iff HE) in H. constructor. auto.
  - intro H. destruct H as [t|l xs HF]; [reflexivity|]. cbn. apply (items_iff HE). auto.
Qed.
End Elem.

(** ** Structs *)
Definition keeps {A B} (g : A -> B) (f : yaml -> A -> P (A * bool)) : Prop :=
  forall y a t a' bad t', f y a t = (Ok (a', bad), t') -> g a' = g a.
Lemma pbind_eq {A B} (x : P A) (k : A -> P B) t r t' : pbind x k t = (r, t') ->
  (exists a t1, x t = (Ok a, t1) /\ k a t1 = (r, t')) \/ (r = Err /\ x t = (Err, t')) \/ (r = Panic /\ x t = (Panic, t')).
Proof.
  unfold pbind. destruct (x t) as [[a| |] t1] eqn:E; intro H; [left; eauto| |]; injection H as <- <-; auto.
Qed.
Lemma part_inv {A B} (get : A -> B) set h y a t a' bad t' : part get set h y a t = (Ok (a', bad), t') ->
  exists b, h y (get a) t = (Ok (b, bad), t') /\ a' = set a b.
Proof.
  unfold part. intro H. apply pbind_ok in H. destruct H as ([b bad1] & t1 & H1 & H2). apply pret_ok in H2. destruct H2 as [H2 ->]. injection H2 as <- <-. eauto.
Qed.
Lemma part_keeps {A B C} (g : A -> C) (get : A -> B) set h : (forall a b, g (set a b) = g a) -> keeps g (part get set h).
Proof. intros HG y a t a' bad t' H. apply part_inv in H. destruct H as (b & _ & ->). apply HG. Qed.

Section Struct.
Context {A : Type} (field : string -> option (yaml -> A -> P (A * bool))).
Lemma struct_cons k y m a t r : decode_struct field ((k, y) :: m) a t = r ->
  (exists name, decode_string k "" = (name, false) /\
     ((field name = None /\ decode_struct field m a t = r) \/
      exists f, field name = Some f /\ pbind (f y a) (fun x => pbind (decode_struct field m (fst x)) (fun z => pret (Ok (fst z, snd x || snd z)))) t = r)) \/
  (snd (decode_string k "") = true /\ pbind (decode_struct field m a) (fun x => pret (Ok (fst x, true))) t = r).
Proof.
  cbn [decode_struct]. destruct (decode_string k "") as [name [|]]; intro H; subst r.
  - right. split; auto. unfold pbind. destruct (decode_struct field m a t) as [[[? ?]| |] ?]; reflexivity.
  - left. exists name. split; auto. destruct (field name) as [f|]; [right|left; auto]. exists f. split; auto.
    unfold pbind. destruct (f y a t) as [[[a1 b1]| |] t1]; try reflexivity. cbn. destruct (decode_struct field m a1 t1) as [[[? ?]| |] ?]; reflexivity.
Qed.
Lemma struct_frame {B} (g : A -> B) m : forall a t a' bad t', (forall k y f, at_key m k y -> field k = Some f -> keeps g f) ->
  decode_struct field m a t = (Ok (a', bad), t') -> g a' = g a.
Proof.
  induction m as [|[k y] m IH]; intros a t a' bad t' HK H.
  - cbn in H. apply pret_ok in H. destruct H as [H _]. injection H as <- _. reflexivity.
  - assert (HK' : forall k y f, at_key m k y -> field k = Some f -> keeps g f).
    { intros k0 y0 f0 (key & HT & HI). apply HK with (y := y0). exists key. split; auto. right. auto. }
    apply struct_cons in H. destruct H as [(name & HN & [[_ H]|(f & HF & H)])|[_ H]].
    + exact (IH _ _ _ _ _ HK' H).
    + apply pbind_ok in H. destruct H as ([a1 b1] & t1 & H1 & H2). apply pbind_ok in H2. destruct H2 as ([a2 b2] & t2 & H2 & H3). apply pret_ok in H3. destruct H3 as [H3 _]. cbn in *. injection H3 as <- _.
      rewrite (IH _ _ _ _ _ HK' H2). eapply HK; eauto. exists k. split; [apply (text_iff k ""); eauto|left; reflexivity].
    + apply pbind_ok in H. destruct H as ([a1 b1] & t1 & H1 & H2). apply pret_ok in H2. destruct H2 as [H2 _]. cbn in *. injection H2 as <- _. exact (IH _ _ _ _ _ HK' H1).
Qed.
Lemma struct_head k y m a t a' t' : decode_struct field ((k, y) :: m) a t = (Ok (a', false), t') ->
  exists name, text k name /\ ((field name = None /\ decode_struct field m a t = (Ok (a', false), t')) \/
    exists f a1 t1, field name = Some f /\ f y a t = (Ok (a1, false), t1) /\ decode_struct field m a1 t1 = (Ok (a', false), t')).
Proof.
  intro H. apply struct_cons in H. destruct H as [(name & HN & H)|[_ H]].
  - exists name. split; [apply (text_iff k ""); auto|]. destruct H as [H|(f & HF & H)]; [left; auto|right].
    apply pbind_ok in H. destruct H as ([a1 b1] & t1 & H1 & H2). apply pbind_ok in H2. destruct H2 as ([a2 b2] & t2 & H2 & H3). apply pret_ok in H3. destruct H3 as [H3 ->].
    cbn in *. injection H3 as <- H3. destruct b1, b2; try discriminate. eauto 7.
  - apply pbind_ok in H. destruct H as ([a1 b1] & t1 & H1 & H2). apply pret_ok in H2. destruct H2 as [H2 _]. discriminate.
Qed.
Lemma struct_field {B} (g : A -> B) k f m : field k = Some f ->
  (forall k' f', k' <> k -> field k' = Some f' -> keeps g f') ->
  forall a t a' t', distinct_texts m -> decode_struct field m a t = (Ok (a', false), t') ->
  opt m k (g a) (fun y b => exists a1 t1 a2 t2, g a1 = g a /\ f y a1 t1 = (Ok (a2, false), t2) /\ g a2 = b) (g a').
Proof.
  intros HF HK. induction m as [|[key y] m IH]; intros a t a' t' (ks & HT & HN) H.
  - cbn in H. apply pret_ok in H. destruct H as [H _]. injection H as <-. left. split; [|reflexivity]. intros y (key & _ & []).
  - inversion HT as [|? s ? ks' HS HT']; subst. inversion HN as [|? ? HI HN']; subst. cbn [fst] in HS.
    apply struct_head in H. destruct H as (name & HM & H). assert (s = name) as -> by (eapply text_fun; eauto).
    assert (HD : distinct_texts m) by (exists ks'; auto).
    destruct (string_dec name k) as [->|NE].
    + right. exists y. split; [exists key; split; auto; left; reflexivity|].
      destruct H as [[HF' _]|(f' & a1 & t1 & HF' & H1 & H2)]; [congruence|]. assert (f' = f) as -> by congruence.
      exists a, t, a1, t1. repeat split; auto. symmetry. eapply struct_frame; [|exact H2].
      intros k0 y0 f0 (key0 & HT0 & HI0) HF0. apply HK with (k' := k0); auto. intros ->. apply HI.
      clear -HT' HT0 HI0. induction HT' as [|e x l l' HE _ IHl]; [destruct HI0|]. destruct HI0 as [->|HI0]; [left; eapply text_fun; eauto|right; auto].
    + assert (HO : forall a1 t1, g a1 = g a -> decode_struct field m a1 t1 = (Ok (a', false), t') ->
        opt ((key, y) :: m) k (g a) (fun y b => exists a1 t1 a2 t2, g a1 = g a /\ f y a1 t1 = (Ok (a2, false), t2) /\ g a2 = b) (g a')).
      { intros a1 t1 HG H1. destruct (IH a1 t1 a' t' HD H1) as [[HX HE]|(y0 & (key0 & HT0 & HI0) & HE)].
        - left. split; [|congruence]. intros y0 (key0 & HT0 & [E|HI0]); [injection E as -> ->; apply NE; eapply text_fun; eauto|apply (HX y0); exists key0; auto].
        - right. exists y0. split; [exists key0; split; auto; right; auto|]. rewrite HG in HE. exact HE. }
      destruct H as [[HF' H]|(f' & a1 & t1 & HF' & H1 & H2)]; [eapply HO; eauto|]. apply (HO a1 t1); auto. eapply HK; eauto.
Qed.
Lemma struct_part {B} (g : A -> B) set h k m : field k = Some (part g set h) -> (forall a b, g (set a b) = b) ->
  (forall k' f', k' <> k -> field k' = Some f' -> keeps g f') ->
  forall a t a' t', distinct_texts m -> decode_struct field m a t = (Ok (a', false), t') ->
  opt m k (g a) (fun y b => exists t1 t2, h y (g a) t1 = (Ok (b, false), t2)) (g a').
Proof.
  intros HF HG HK a t a' t' HD H. destruct (struct_field g k _ m HF HK a t a' t' HD H) as [HL|(y & HY & a1 & t1 & a2 & t2 & E1 & E2 & E3)]; [left; auto|].
  right. exists y. split; auto. apply part_inv in E2. destruct E2 as (b & E2 & ->). rewrite HG in E3. subst b. rewrite E1 in E2. eauto.
Qed.
Lemma struct_texts m : forall a t a' t', decode_struct field m a t = (Ok (a', false), t') -> Forall (fun e => exists s, text (fst e) s) m.
Proof.
  induction m as [|[k y] m IH]; intros a t a' t' H; constructor; apply struct_head in H; destruct H as (name & HN & H); [eauto|].
  destruct H as [[_ H]|(f & a1 & t1 & _ & _ & H)]; eauto.
Qed.

Definition accepts (f : yaml -> A -> P (A * bool)) (y : yaml) : Prop := forall a t, exists a' t', f y a t = (Ok (a', false), t').
Lemma struct_ok m : distinct_texts m -> (forall k y f, at_key m k y -> field k = Some f -> accepts f y) ->
  forall a t, exists a' t', decode_struct field m a t = (Ok (a', false), t').
Proof.
  intros (ks & HT & _). induction HT as [|[k y] s m ks HS _ IH]; intros HF a t; [exists a, t; reflexivity|]. cbn [decode_struct fst] in *.
  assert (HF' : forall k y f, at_key m k y -> field k = Some f -> accepts f y).
  { intros k0 y0 f0 (key & HK & HI). apply HF. exists key. split; auto. right. auto. }
  assert (HA : at_key ((k, y) :: m) s y) by (exists k; split; auto; left; reflexivity).
  apply (text_iff k "") in HS. rewrite HS. destruct (field s) as [f|] eqn:EF; [|apply IH; auto].
  destruct (HF s y f HA EF a t) as (a1 & t1 & E1). unfold pbind. rewrite E1. destruct (IH HF' a1 t1) as (a2 & t2 & E2). rewrite E2. exists a2, t2. reflexivity.
Qed.
End Struct.
Lemma part_accepts {A B} (get : A -> B) set h y : accepts h y -> accepts (part get set h) y.
Proof. intros H a t. destruct (H (get a) t) as (b & t' & E). unfold part, pbind. rewrite E. eexists _, _. reflexivity. Qed.
Lemma lift_ok {A} (f : yaml -> A -> A * bool) y a t r t' : lift f y a t = (Ok r, t') <-> f y a = r /\ t' = t.
Proof. unfold lift, pret. split; [intro H; injection H as <- <-; auto|]. intros [<- ->]. reflexivity. Qed.
Lemma by_name_in {A} (l : list (string * A)) k f : by_name l k = Some f -> In (k, f) l.
Proof. apply assoc_in. Qed.
