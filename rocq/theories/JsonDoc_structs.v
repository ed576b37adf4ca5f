(** Reading the fields of a struct from the entries of an object. *)
From Coq Require Import List String Ascii Bool Arith ZArith Lia.
From Verif Require Import Base GoStr GoFloat Types Json StrUtils Parse Marshal Lifecycle Lifecycle_proofs Load_proofs Spec_Tree Spec_Load JsonDoc Spec_JsonDoc.
From Verif Require Match_proofs.
Import ListNotations.
Open Scope string_scope.
Local Arguments String.prefix : simpl never.

(** ** Letters of either case *)
Lemma same_key_iff a b : same_key a b <-> fold_text a = fold_text b.
Proof. unfold same_key. symmetry. apply Match_proofs.folded_iff. Qed.
Lemma same_key_refl a : same_key a a.
Proof. apply same_key_iff. reflexivity. Qed.
Lemma same_key_sym a b : same_key a b -> same_key b a.
Proof. rewrite !same_key_iff. auto. Qed.
Lemma same_key_trans a b c : same_key a b -> same_key b c -> same_key a c.
Proof. rewrite !same_key_iff. congruence. Qed.
Lemma same_key_dec a b : {same_key a b} + {~ same_key a b}.
Proof. destruct (string_dec (fold_text a) (fold_text b)); [left|right]; rewrite same_key_iff; auto. Qed.

(** ** Entries of an object *)
Lemma opt_map {A B} (phi : A -> B) m k a (R : json -> A -> Prop) (R' : json -> B -> Prop) x :
  (forall j x, at_key m k j -> R j x -> R' j (phi x)) -> opt m k a R x -> opt m k (phi a) R' (phi x).
Proof. intros H [[HN ->]|(y & HY & HR)]; [left; auto|right; eauto]. Qed.
Lemma opt_none {A} m k (a : A) R x : no_key m k -> opt m k a R x -> x = a.
Proof. intros HN [[_ ->]|(y & HY & _)]; auto. destruct (HN y HY). Qed.
Lemma at_key_unique m k j j' : distinct m -> at_key m k j -> at_key m k j' -> j' = j.
Proof.
  intro HD. induction HD as [|e m HE HD IH]; intros (key & HK & HI) (key' & HK' & HI'); [destruct HI|].
  rewrite Forall_forall in HE. destruct HI as [E|HI], HI' as [E'|HI'].
  - congruence.
  - subst e. destruct (HE _ HI'). cbn. apply (same_key_trans _ k); auto. apply same_key_sym. auto.
  - subst e. destruct (HE _ HI). cbn. apply (same_key_trans _ k); auto. apply same_key_sym. auto.
  - apply IH; [exists key|exists key']; auto.
Qed.
Lemma opt_at {A} m k (a : A) R x j : distinct m -> opt m k a R x -> at_key m k j -> R j x.
Proof. intros HD [[HX _]|(y' & HY & HR)] HA; [destruct (HX j HA)|]. rewrite (at_key_unique m k y' j HD HY HA). exact HR. Qed.
Lemma opt_fun {A} m k (a : A) (R : json -> A -> Prop) x x' : distinct m -> (forall j z z', at_key m k j -> R j z -> R j z' -> z' = z) ->
  opt m k a R x -> opt m k a R x' -> x' = x.
Proof.
  intros HD HF [[HN ->]|(j & HJ & HR)] H'; [exact (opt_none _ _ _ _ _ HN H')|]. apply (HF j); auto. exact (opt_at _ _ _ _ _ _ HD H' HJ).
Qed.

(** ** Fields *)
Definition named {A} (fields : list (string * A)) : Prop := NoDup (map (fun e => fold_text (fst e)) fields).
Lemma assoc_some_in {A} k (l : list (string * A)) f : assoc k l = Some f -> In (k, f) l.
Proof.
  induction l as [|[k' a] l IH]; cbn; [discriminate|]. destruct (String.eqb_spec k k') as [->|N]; [|auto]. intro H. injection H as ->. auto.
Qed.
Lemma named_same {A} (fields : list (string * A)) n f n' f' : named fields -> In (n, f) fields -> In (n', f') fields -> fold_text n = fold_text n' -> n = n' /\ f = f'.
Proof.
  intros HN. unfold named in HN. induction fields as [|e l IH]; intros H H' E; [destruct H|]. inversion HN as [|? ? HX HN']; subst.
  destruct H as [->|H], H' as [E'|H'].
  - injection E' as <- <-. auto.
  - exfalso. apply HX. apply in_map_iff. exists (n', f'). auto.
  - subst e. exfalso. apply HX. apply in_map_iff. exists (n, f). auto.
  - auto.
Qed.
Lemma field_iff {A} (fields : list (string * A)) key f : named fields -> jd_field fields key = Some f <-> exists n, same_key key n /\ In (n, f) fields.
Proof.
  intro HN. unfold jd_field. destruct (assoc key fields) as [f'|] eqn:EA.
  - apply assoc_some_in in EA. split.
    + intro H. injection H as ->. exists key. split; [apply same_key_refl|auto].
    + intros (n & HK & HI). apply same_key_iff in HK. destruct (named_same fields key f' n f HN EA HI HK). congruence.
  - clear EA. split.
    + intro H. destruct (find _ fields) as [[n f']|] eqn:EF; [|discriminate H]. injection H as ->. apply find_some in EF. destruct EF as [HI HE]. exists n. split; auto.
      apply same_key_iff. apply String.eqb_eq in HE. auto.
    + intros (n & HK & HI). apply same_key_iff in HK. destruct (find (fun e => equal_fold (fst e) key) fields) as [[n' f']|] eqn:EF.
      * apply find_some in EF. destruct EF as [HI' HE]. apply String.eqb_eq in HE. cbn in HE. destruct (named_same fields n f n' f' HN HI HI') as [_ ->]; [congruence|reflexivity].
      * exfalso. pose proof (find_none _ _ EF _ HI) as HX. cbn in HX. unfold equal_fold in HX. rewrite HK, String.eqb_refl in HX. discriminate HX.
Qed.

Definition keeps {A B} (g : A -> B) (f : json -> A -> P (A * bool)) : Prop :=
  forall j a t a' bad t', f j a t = (Ok (a', bad), t') -> g a' = g a.
Lemma pbind_cases {A B} (x : P A) (k : A -> P B) t r t' : pbind x k t = (r, t') ->
  (exists a t1, x t = (Ok a, t1) /\ k a t1 = (r, t')) \/ (r = Err /\ x t = (Err, t')) \/ (r = Panic /\ x t = (Panic, t')).
Proof.
  unfold pbind. destruct (x t) as [[a| |] t1] eqn:E; intro H; [left; eauto| |]; injection H as <- <-; auto.
Qed.
Lemma part_inv {A B} (get : A -> B) set h j a t a' bad t' : jd_part get set h j a t = (Ok (a', bad), t') ->
  exists b, h j (get a) t = (Ok (b, bad), t') /\ a' = set a b.
Proof.
  unfold jd_part. intro H. apply pbind_ok in H. destruct H as ([b bad1] & t1 & H1 & H2). apply pret_ok in H2. destruct H2 as [H2 ->]. injection H2 as <- <-. eauto.
Qed.
Lemma part_keeps {A B C} (g : A -> C) (get : A -> B) set h : (forall a b, g (set a b) = g a) -> keeps g (jd_part get set h).
Proof. intros HG y a t a' bad t' H. apply part_inv in H. destruct H as (b & _ & ->). apply HG. Qed.

Section Struct.
Context {A : Type} (fields : list (string * (json -> A -> P (A * bool)))).
Hypothesis HN : named fields.
Lemma members_cons k j m a t a' bad t' : jd_members fields ((k, j) :: m) a t = (Ok (a', bad), t') ->
  (jd_field fields k = None /\ jd_members fields m a t = (Ok (a', bad), t')) \/
  exists f a1 b1 b2 t1, jd_field fields k = Some f /\ f j a t = (Ok (a1, b1), t1) /\ jd_members fields m a1 t1 = (Ok (a', b2), t') /\ bad = b1 || b2.
Proof.
  cbn [jd_members]. destruct (jd_field fields k) as [f|]; [right|left; auto]. exists f.
  apply pbind_ok in H. destruct H as ([a1 b1] & t1 & H1 & H2). apply pbind_ok in H2. destruct H2 as ([a2 b2] & t2 & H2 & H3). apply pret_ok in H3. destruct H3 as [H3 ->].
  injection H3 as <- <-. exists a1, b1, b2, t1. auto.
Qed.
Lemma at_tail m e k j : at_key m k j -> at_key (e :: m) k j.
Proof. intros (key & H1 & H2). exists key. split; auto. right. auto. Qed.
Lemma struct_frame {B} (g : A -> B) m : forall a t a' bad t', (forall n j f, at_key m n j -> In (n, f) fields -> keeps g f) ->
  jd_members fields m a t = (Ok (a', bad), t') -> g a' = g a.
Proof.
  induction m as [|[k j] m IH]; intros a t a' bad t' HK H.
  - cbn in H. apply pret_ok in H. destruct H as [H _]. injection H as <- _. reflexivity.
  - assert (HK' : forall n j f, at_key m n j -> In (n, f) fields -> keeps g f) by (intros; eapply HK; eauto using at_tail).
    apply members_cons in H. destruct H as [[_ H]|(f & a1 & b1 & b2 & t1 & HF & H1 & H2 & _)]; [eauto|].
    rewrite (IH _ _ _ _ _ HK' H2). apply (field_iff fields k f HN) in HF. destruct HF as (n & HS & HI). eapply HK; eauto. exists k. split; auto. left. reflexivity.
Qed.
Lemma struct_field {B} (g : A -> B) k f m : In (k, f) fields ->
  (forall k' f', k' <> k -> In (k', f') fields -> keeps g f') ->
  forall a t a' t', distinct m -> jd_members fields m a t = (Ok (a', false), t') ->
  opt m k (g a) (fun j b => exists a1 t1 a2 t2, g a1 = g a /\ f j a1 t1 = (Ok (a2, false), t2) /\ g a2 = b) (g a').
Proof.
  intros HF HK. induction m as [|[key j] m IH]; intros a t a' t' HD H.
  - cbn in H. apply pret_ok in H. destruct H as [H _]. injection H as <-. left. split; [|reflexivity]. intros j (key & _ & []).
  - inversion HD as [|? ? HE HD']; subst. rewrite Forall_forall in HE.
    apply members_cons in H. destruct (same_key_dec key k) as [HS|NS].
    + right. exists j. split; [exists key; split; auto; left; reflexivity|].
      assert (EF : jd_field fields key = Some f) by (apply field_iff; eauto).
      destruct H as [[H _]|(f' & a1 & b1 & b2 & t1 & EF' & H1 & H2 & HB)]; [congruence|]. assert (f' = f) as -> by congruence.
      destruct b1, b2; try discriminate HB. exists a, t, a1, t1. repeat split; auto. symmetry. eapply struct_frame; [|exact H2].
      intros n j0 f0 (key0 & HS0 & HI0) HF0. apply (HK n); auto. intros ->. apply (HE _ HI0). cbn. apply (same_key_trans _ k); auto. apply same_key_sym. auto.
    + assert (HO : forall a1 t1, g a1 = g a -> jd_members fields m a1 t1 = (Ok (a', false), t') ->
        opt ((key, j) :: m) k (g a) (fun j b => exists a1 t1 a2 t2, g a1 = g a /\ f j a1 t1 = (Ok (a2, false), t2) /\ g a2 = b) (g a')).
      { intros a1 t1 HG H1. destruct (IH a1 t1 a' t' HD' H1) as [[HX EX]|(j0 & HJ & EX)].
        - left. split; [|congruence]. intros j0 (key0 & HS0 & [E|HI0]); [injection E as -> ->; contradiction|apply (HX j0); exists key0; auto].
        - right. exists j0. split; [apply at_tail; auto|]. rewrite HG in EX. exact EX. }
      destruct H as [[_ H]|(f' & a1 & b1 & b2 & t1 & EF' & H1 & H2 & HB)]; [eapply HO; eauto|]. destruct b1, b2; try discriminate HB. apply (HO a1 t1); auto.
      apply (field_iff fields key f' HN) in EF'. destruct EF' as (n & HSn & HIn). refine (HK n f' _ HIn _ _ _ _ _ _ H1). intros ->. contradiction.
Qed.
Lemma struct_part {B} (g : A -> B) set h k m : In (k, jd_part g set h) fields -> (forall a b, g (set a b) = b) ->
  (forall k' f', k' <> k -> In (k', f') fields -> keeps g f') ->
  forall a t a' t', distinct m -> jd_members fields m a t = (Ok (a', false), t') ->
  opt m k (g a) (fun j b => exists t1 t2, h j (g a) t1 = (Ok (b, false), t2)) (g a').
Proof.
  intros HF HG HK a t a' t' HD H. destruct (struct_field g k _ m HF HK a t a' t' HD H) as [HL|(j & HJ & a1 & t1 & a2 & t2 & E1 & E2 & E3)]; [left; auto|].
  right. exists j. split; auto. apply part_inv in E2. destruct E2 as (b & E2 & ->). rewrite HG in E3. subst b. rewrite E1 in E2. eauto.
Qed.

Definition accepts (f : json -> A -> P (A * bool)) (j : json) : Prop := forall a t, exists a' t', f j a t = (Ok (a', false), t').
Lemma struct_ok m : (forall n j f, at_key m n j -> In (n, f) fields -> accepts f j) ->
  forall a t, exists a' t', jd_members fields m a t = (Ok (a', false), t').
Proof.
  induction m as [|[k j] m IH]; intros HF a t; [exists a, t; reflexivity|]. cbn [jd_members].
  assert (HF' : forall n j f, at_key m n j -> In (n, f) fields -> accepts f j) by (intros; eapply HF; eauto using at_tail).
  destruct (jd_field fields k) as [f|] eqn:EF; [|apply IH; auto]. apply (field_iff fields k f HN) in EF. destruct EF as (n & HS & HI).
  assert (HA : at_key ((k, j) :: m) n j) by (exists k; split; auto; left; reflexivity).
  destruct (HF n j f HA HI a t) as (a1 & t1 & E1). unfold pbind. rewrite E1. destruct (IH HF' a1 t1) as (a2 & t2 & E2). rewrite E2. exists a2, t2. reflexivity.
Qed.
Lemma struct_panic m : forall a t t', jd_members fields m a t = (Panic, t') ->
  exists n j f a1 t1 t2, at_key m n j /\ In (n, f) fields /\ f j a1 t1 = (Panic, t2).
Proof.
  induction m as [|[k j] m IH]; intros a t t' H; [discriminate H|].
  assert (HI : forall a t t', jd_members fields m a t = (Panic, t') -> exists n j0 f a1 t1 t2, at_key ((k, j) :: m) n j0 /\ In (n, f) fields /\ f j0 a1 t1 = (Panic, t2)).
  { intros a0 t0 t0' H0. destruct (IH _ _ _ H0) as (n & j0 & f & a1 & t1 & t2 & H1 & H2 & H3). exists n, j0, f, a1, t1, t2. repeat split; auto using at_tail. }
  cbn [jd_members] in H. destruct (jd_field fields k) as [f|] eqn:EF; [|eauto].
  apply pbind_cases in H. destruct H as [([x b] & t1 & H1 & H2)|[[H _]|[_ H]]]; [|discriminate H|].
  - apply pbind_cases in H2. destruct H2 as [([z b2] & t2 & H2 & H3)|[[H2 _]|[_ H2]]]; [discriminate H3|discriminate H2|eauto].
  - apply (field_iff fields k f HN) in EF. destruct EF as (n & HS & HIn). exists n, j, f, a, t, t'. repeat split; auto. exists k. split; auto. left. reflexivity.
Qed.
End Struct.
Lemma part_accepts {A B} (get : A -> B) set h j : accepts h j -> accepts (jd_part get set h) j.
Proof. intros H a t. destruct (H (get a) t) as (b & t' & E). unfold jd_part, pbind. rewrite E. eexists _, _. reflexivity. Qed.
Lemma lift_ok {A} (f : json -> A -> A * bool) j a t r t' : jd_lift f j a t = (Ok r, t') <-> f j a = r /\ t' = t.
Proof. unfold jd_lift, pret. split; [intro H; injection H as <- <-; auto|]. intros [<- ->]. reflexivity. Qed.
Lemma part_panic {A B} (get : A -> B) set h j a t t' : jd_part get set h j a t = (Panic, t') -> h j (get a) t = (Panic, t').
Proof.
  unfold jd_part. intro H. apply pbind_cases in H. destruct H as [([b bad] & t1 & H1 & H2)|[[H _]|[_ H]]]; [discriminate H2|discriminate H|auto].
Qed.
Lemma items_panic {A} (elem : json -> P (A * bool)) l : forall t t', jd_items elem l t = (Panic, t') -> exists j t1 t2, In j l /\ elem j t1 = (Panic, t2).
Proof.
  induction l as [|y l IH]; intros t t' H; [discriminate H|]. cbn [jd_items] in H. apply pbind_cases in H. destruct H as [([x b] & t1 & H1 & H2)|[[H _]|[_ H]]]; [|discriminate H|].
  - apply pbind_cases in H2. destruct H2 as [([xs b'] & t2 & H2 & H3)|[[H2 _]|[_ H2]]]; [discriminate H3|discriminate H2|]. destruct (IH _ _ H2) as (y0 & u & u' & HI & HE). exists y0, u, u'. split; [right|]; auto.
  - exists y, t, t'. split; [left|]; auto.
Qed.
Lemma items_cons {A} (elem : json -> P (A * bool)) j l t xs t' : jd_items elem (j :: l) t = (Ok (xs, false), t') ->
  exists x xs' t1, xs = x :: xs' /\ elem j t = (Ok (x, false), t1) /\ jd_items elem l t1 = (Ok (xs', false), t').
Proof.
  cbn [jd_items]. intro H. apply pbind_ok in H. destruct H as ([x b] & t1 & H1 & H2). apply pbind_ok in H2. destruct H2 as ([xs' b'] & t2 & H2 & H3). apply pret_ok in H3. destruct H3 as [H3 ->].
  destruct b, b'; try discriminate H3. injection H3 as <-. eauto 7.
Qed.

(** ** Texts and maps *)
Lemma text_iff j s : jd_string j "" = (s, false) <-> says_text j s.
Proof.
  split.
  - destruct j; cbn; intro H; try discriminate H; injection H as <-; constructor.
  - intro H. destruct H; reflexivity.
Qed.
Lemma text_fun j s s' : says_text j s -> says_text j s' -> s' = s.
Proof. rewrite <- !text_iff. congruence. Qed.
Lemma upsert_new {A} k (a : A) l : ~ In k (keys l) -> upsert k a l = (l ++ [(k, a)])%list.
Proof.
  induction l as [|[k' a'] l IH]; cbn; intro H; [reflexivity|]. destruct (String.eqb_spec k k') as [->|N]; [destruct H; auto|]. f_equal. auto.
Qed.
Lemma entries_exact m : forall old es, NoDup (keys old ++ keys m) -> jd_entries m old = (es, false) <-> exists es', es = (old ++ es')%list /\ Forall2 (fun e f => fst e = fst f /\ says_text (snd e) (snd f)) m es'.
Proof.
  induction m as [|[k j] m IH]; intros old es HN; cbn [jd_entries].
  - split; [intro H; injection H as <-; exists []; rewrite app_nil_r; auto|]. intros (es' & -> & HF). inversion HF. rewrite app_nil_r. reflexivity.
  - destruct (jd_string j "") as [s bad] eqn:ES. destruct (jd_entries m (upsert k s old)) as [r bad'] eqn:EM.
    assert (HK : ~ In k (keys old)).
    { intro HI. cbn in HN. apply NoDup_remove_2 in HN. apply HN. apply in_or_app. auto. }
    assert (HN' : NoDup (keys (old ++ [(k, s)]) ++ keys m)).
    { unfold keys in *. rewrite map_app. cbn. rewrite <- app_assoc. exact HN. }
    rewrite (upsert_new k s old HK) in EM. split.
    + intro H. injection H as <- HB. destruct bad, bad'; try discriminate HB. apply text_iff in ES. apply (IH _ _ HN') in EM. destruct EM as (es' & -> & HF).
      exists ((k, s) :: es'). rewrite <- app_assoc. split; [reflexivity|constructor; auto].
    + intros (es' & -> & HF). inversion HF as [|? [k' s'] ? es'' [E HT] HF']; subst. cbn in E, HT. subst k'. apply text_iff in HT. rewrite ES in HT. injection HT as -> ->.
      assert (EX : jd_entries m (old ++ [(k, s')]) = (((old ++ [(k, s')]) ++ es'')%list, false)) by (apply (IH _ _ HN'); eauto).
      rewrite EM in EX. injection EX as -> ->. rewrite <- app_assoc. reflexivity.
Qed.
Lemma map_exact j es : (forall raw m, j = JObj raw m -> NoDup (keys m)) -> jd_map j [] = (es, false) <-> says_map j es.
Proof.
  intro HN. split.
  - destruct j as [|b|n|raw s|raw l|raw m]; cbn; intro H; try discriminate H; [injection H as <-; constructor|]. apply entries_exact in H; [|apply (HN raw m eq_refl)].
    destruct H as (es' & -> & HF). constructor. exact HF.
  - intro H. destruct H as [|raw m es HF]; [reflexivity|]. apply entries_exact; [apply (HN raw m eq_refl)|]. exists es. auto.
Qed.
Lemma entries_total m es : Forall2 (fun e f => fst e = fst f /\ says_text (snd e) (snd f)) m es -> forall old, exists r, jd_entries m old = (r, false).
Proof.
  induction 1 as [|[k j] [k' s] m es [H1 H2] _ IH]; intro old; cbn [jd_entries]; [eauto|]. cbn in *. apply text_iff in H2. rewrite H2. destruct (IH (upsert k s old)) as [r E]. rewrite E. eauto.
Qed.
