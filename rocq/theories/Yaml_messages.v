(** Messages read from YAML documents are those the documents say. *)
From Coq Require Import List String Ascii Bool Arith ZArith Floats.SpecFloat Lia.
From Verif Require Import Base GoStr GoFloat Types Json StrUtils Validate Prepare Parse Marshal Lifecycle Eval Check Spec_Leaf Spec_Regex Spec_Lifecycle Spec_Decision Spec_Meaning Spec_Match Spec_Accept Accept_rules Messages Fields Yaml
  Spec_Tree Spec_Glob Spec_Names Spec_Load Load_proofs Spec_Copy Spec_Grammar Spec_Messages Messages_proofs Lifecycle_proofs Spec_Fields Fields_proofs Spec_Yaml Yaml_proofs Yaml_rules Yaml_more Spec_YamlMessages.
Import ListNotations.
Open Scope string_scope.
Local Arguments String.prefix : simpl never.

(** ** Numbers *)
Lemma trunc_cut s m e z : cut (S754_finite s m e) z <-> f64_trunc (S754_finite s m e) = z.
Proof.
  unfold cut, f64_trunc. cbv zeta. destruct (Z.leb_spec 0 e) as [HE|HE].
  - rewrite Z.max_l by lia. rewrite Z.add_0_r, Z.pow_0_r. split.
    + intros (a & -> & H). destruct s; lia.
    + intros <-. exists (Zpos m * 2 ^ e)%Z. split; [reflexivity|]. lia.
  - rewrite Z.max_r by lia. replace (e + - e)%Z with 0%Z by lia. rewrite Z.pow_0_r, Z.mul_1_r. pose proof (Z.pow_pos_nonneg 2 (- e) ltac:(lia) ltac:(lia)) as HP. split.
    + intros (a & -> & H). assert (E : (Zpos m / 2 ^ (- e) = a)%Z). { symmetry. apply Z.div_unique with (r := (Zpos m - a * 2 ^ (- e))%Z); lia. } rewrite E. destruct s; reflexivity.
    + intros <-. exists (Zpos m / 2 ^ (- e))%Z. split; [reflexivity|]. pose proof (Z.div_mod (Zpos m) (2 ^ (- e)) ltac:(lia)) as HD. pose proof (Z.mod_pos_bound (Zpos m) (2 ^ (- e)) HP). lia.
Qed.
Lemma cut_fun f z z' : cut f z -> cut f z' -> z' = z.
Proof. destruct f as [s|s| |s m e]; try (intros []; fail). - cbn. congruence. - rewrite !trunc_cut. congruence. Qed.
Lemma int64_iff f z : f64_int64 f = Some z <-> (cut f z /\ in_int64 z) \/ (wraps f /\ z = (- 2 ^ 63)%Z).
Proof.
  assert (HG : forall g, (forall x, cut g x <-> f64_trunc g = x) -> g <> S754_infinity true ->
    (if (2 ^ 63 <? f64_trunc g)%Z then None else Some (if (f64_trunc g <? - 2 ^ 63)%Z || (f64_trunc g =? 2 ^ 63)%Z then - 2 ^ 63 else f64_trunc g)%Z) = Some z <->
    (cut g z /\ in_int64 z) \/ (wraps g /\ z = (- 2 ^ 63)%Z)).
  { intros g HC HI. unfold wraps, in_int64. set (x := f64_trunc g) in *. split.
    - destruct (Z.ltb_spec (2 ^ 63) x); [discriminate|]. intro H0. apply (f_equal (fun o => match o with Some a => a | None => 0%Z end)) in H0. cbv beta iota in H0. subst z. destruct (Z.ltb_spec x (- 2 ^ 63)); cbn [orb].
      + right. split; [|reflexivity]. right. exists x. split; [apply HC; reflexivity|lia].
      + destruct (Z.eqb_spec x (2 ^ 63)); [right; split; [|reflexivity]; right; exists x; split; [apply HC; reflexivity|lia]|left]. split; [apply HC; reflexivity|lia].
    - intros [[H1 H2]|[[H1|(y & H1 & H2)] ->]]; [|contradiction|].
      + apply HC in H1. rewrite H1. destruct (Z.ltb_spec (2 ^ 63) z); [lia|]. destruct (Z.ltb_spec z (- 2 ^ 63)); [lia|]. destruct (Z.eqb_spec z (2 ^ 63)); [lia|]. reflexivity.
      + apply HC in H1. rewrite H1. destruct (Z.ltb_spec (2 ^ 63) y); [lia|]. destruct (Z.ltb_spec y (- 2 ^ 63)); [reflexivity|]. destruct (Z.eqb_spec y (2 ^ 63)); [reflexivity|lia]. }
  destruct f as [s|s| |s m e]; cbn [f64_int64].
  - apply HG; [|discriminate]. intro x. cbn. split; congruence.
  - destruct s.
    + split; [intro H; injection H as <-; right; split; [left|]; reflexivity|]. intros [[[] _]|[_ ->]]. reflexivity.
    + split; [discriminate|]. intros [[[] _]|[[H|(y & [] & _)] _]]. discriminate H.
  - split; [discriminate|]. intros [[[] _]|[[H|(y & [] & _)] _]]. discriminate H.
  - apply HG; [|discriminate]. apply trunc_cut.
Qed.
Lemma whole_iff y old z : decode_int y old = (z, false) <-> whole y z.
Proof.
  split.
  - destruct y as [t v|l|m]; cbn; try discriminate. destruct v; try discriminate.
    + intro H. injection H as <-. constructor.
    + intro H. injection H as <-. constructor.
    + destruct (f64_int64 f) as [x|] eqn:E; [|discriminate]. intro H. injection H as <-. apply int64_iff in E. destruct E as [[E1 E2]|[E ->]]; [apply wh_cut|apply wh_wraps]; auto.
  - intro H. destruct H as [t|t z|t f z H1 H2|t f H]; cbn; try reflexivity.
    + rewrite (proj2 (int64_iff f z)); auto.
    + rewrite (proj2 (int64_iff f (- 2 ^ 63))); auto.
Qed.
Lemma in_nulls t : null_text t GNil = true <-> In t nulls.
Proof. apply null_text_iff. Qed.
Lemma not_nulls t : null_text t GNil = false <-> ~ In t nulls.
Proof. rewrite <- in_nulls. destruct (null_text t GNil); split; intro H; try discriminate; auto. exfalso. auto. Qed.
Lemma scalar_null t v : ~ null (YScalar t v) <-> v <> GNil.
Proof. split; [intros H ->; apply H; exists t; reflexivity|]. intros H [t' E]. injection E as -> ->. auto. Qed.
Lemma version_iff y old x : decode_float y old = (x, false) <-> pointer f_zero number y x.
Proof.
  split.
  - destruct y as [t v|l|m]; cbn [decode_float]; try discriminate. destruct v; try discriminate.
    + destruct (null_text t GNil) eqn:E; intro H; injection H as <-; [apply po_none; apply in_nulls; auto|apply po_zero; apply not_nulls; auto].
    + intro H. injection H as <-. apply po_some; [apply scalar_null; discriminate|constructor].
    + intro H. injection H as <-. apply po_some; [apply scalar_null; discriminate|constructor].
  - intro H. destruct H as [t H|t H|y a HN H].
    + cbn [decode_float]. apply in_nulls in H. rewrite H. reflexivity.
    + cbn [decode_float]. apply not_nulls in H. rewrite H. reflexivity.
    + destruct H; reflexivity.
Qed.
Lemma small_iff z c : small_byte z = (c, false) <-> z = Z.of_nat (nat_of_ascii c).
Proof.
  unfold small_byte. split.
  - destruct (Z.leb_spec 0 z); [|discriminate]. destruct (Z.leb_spec z 255); [|discriminate]. cbn. intro HE. injection HE as <-. unfold nat_of_ascii.
    rewrite N_ascii_embedding by lia. rewrite Z_N_nat, Z2Nat.id by lia. reflexivity.
  - intros ->. pose proof (nat_ascii_bounded c) as HB. destruct (Z.leb_spec 0 (Z.of_nat (nat_of_ascii c))); [|lia]. destruct (Z.leb_spec (Z.of_nat (nat_of_ascii c)) 255); [|lia]. cbn [andb].
    unfold nat_of_ascii. rewrite N_nat_Z, N2Z.id, ascii_N_embedding. reflexivity.
Qed.
Lemma byte_iff y c : decode_byte y = (c, false) <-> byte y c.
Proof.
  split.
  - destruct y as [t v|l|m]; cbn [decode_byte]; try discriminate. destruct v; try discriminate.
    + intro H. injection H as <-. constructor.
    + intro H. apply small_iff in H. subst. constructor.
    + destruct f as [s|s| |s m e]; try discriminate; intro H; apply small_iff in H; constructor; [exact (eq_sym H)|apply trunc_cut; exact H].
  - intro H. destruct H as [t|t c|t f c H]; cbn [decode_byte]; [reflexivity|apply small_iff; reflexivity|].
    destruct f as [s|s| |s m e]; try contradiction; apply small_iff; [symmetry; exact H|apply trunc_cut; exact H].
Qed.
Lemma string_of_list l : list_ascii_of_string (string_of l) = l.
Proof. unfold string_of. induction l; cbn; f_equal; auto. Qed.
Lemma list_of_string s : string_of (list_ascii_of_string s) = s.
Proof. unfold string_of. induction s; cbn; f_equal; auto. Qed.
Lemma bytes_iff y old x : decode_bytes y old = (x, false) <-> pointer "" bytes y x.
Proof.
  split.
  - destruct y as [t v|l|m]; cbn [decode_bytes]; try discriminate.
    + destruct v; try discriminate. destruct (null_text t GNil) eqn:E; intro H; injection H as <-; [apply po_none; apply in_nulls; auto|apply po_zero; apply not_nulls; auto].
    + destruct (decode_items decode_byte l) as [bs bad] eqn:E. intro H. injection H as <- ->. apply (items_iff _ _ byte_iff) in E. apply po_some; [intros [t HT]; discriminate HT|].
      exists l. split; [reflexivity|]. rewrite string_of_list. exact E.
  - intro H. destruct H as [t H|t H|y a HN (l & -> & H)].
    + cbn [decode_bytes]. apply in_nulls in H. rewrite H. reflexivity.
    + cbn [decode_bytes]. apply not_nulls in H. rewrite H. reflexivity.
    + apply (items_iff _ _ byte_iff) in H. cbn [decode_bytes]. rewrite H, list_of_string. reflexivity.
Qed.
Lemma null_text_some t v : v <> GNil -> null_text t v = true <-> In t ["~"; "null"].
Proof.
  intro HV. unfold null_text. replace (has_value v) with true by (destruct v; try reflexivity; congruence). cbn. rewrite !orb_true_iff, andb_false_r, !String.eqb_eq. split.
  - intros [[H|[H|H]]|H]; try discriminate; auto.
  - intros [H|[H|[]]]; subst; auto.
Qed.
Lemma raw_iff y old t x : clean y -> (exists t', decode_interface y old t = (Ok (x, false), t')) <-> pointer GNil raw_value y x.
Proof.
  intro HC. assert (HCol : forall z, z = y -> (forall t v, z <> YScalar t v) ->
    ((exists t', match decode_any z with Some v => pret (Ok (Some v, false)) | None => pret Err end t = (Ok (x, false), t')) <-> pointer GNil raw_value z x)).
  { intros z -> HN. split.
    - destruct (decode_any y) as [v|] eqn:E; intros [t' H]; [|discriminate H]. injection H as <- <-. apply (any_iff y v HC) in E. apply po_some.
      + intros [u HU]. exact (HN _ _ HU).
      + split; [exact E|]. intros u w HU. destruct (HN _ _ HU).
    - intro H. destruct H as [u|u|y a HY [HV _]]; [destruct (HN u GNil eq_refl)|destruct (HN u GNil eq_refl)|]. apply (any_iff y a HC) in HV. rewrite HV. exists t. reflexivity. }
  destruct y as [u v|l|m]; cbn [decode_interface]; [|apply HCol; [reflexivity|discriminate]|apply HCol; [reflexivity|discriminate]].
  clear HCol. split.
  - intros [t' H]. destruct (null_text u v) eqn:EN.
    + destruct (has_value v) eqn:EV; [discriminate H|]. destruct v; try discriminate EV. injection H as <- <-. apply po_none. apply in_nulls. exact EN.
    + injection H as <- <-. destruct (has_value v) eqn:EV.
      * assert (HV : v <> GNil) by (intros ->; discriminate EV). apply po_some; [apply scalar_null; exact HV|]. split; [constructor|]. intros t' w E HI. injection E as <- <-. apply (null_text_some u v HV) in HI. congruence.
      * destruct v; try discriminate EV. apply po_zero. apply not_nulls. exact EN.
  - intro H. inversion H as [w HI|w HI|w a HN [HV HI]]; subst.
    + apply in_nulls in HI. rewrite HI. exists t. reflexivity.
    + apply not_nulls in HI. rewrite HI. exists t. reflexivity.
    + inversion HV; subst. apply scalar_null in HN. destruct (null_text u a) eqn:EN; [|exists t; reflexivity]. apply (null_text_some u a HN) in EN. destruct (HI _ _ eq_refl EN).
Qed.

(** ** Messages *)
Lemma text_keys_iff k : is_any k text_keys = true <-> In k (map fst string_keys).
Proof.
  change (map fst string_keys) with text_keys. unfold is_any. rewrite existsb_exists. split.
  - intros (x & HI & HE). apply String.eqb_eq in HE. subst. auto.
  - intro HI. exists k. rewrite String.eqb_refl. auto.
Qed.
Lemma message_field_cases k f : message_field k = Some f ->
  (In k (map fst string_keys) /\ f = text_field k) \/
  (~ In k (map fst string_keys) /\
   In (k, f) [("request_size", part f_size (fun d x => mkFields (f_texts d) x (f_version d) (f_json d) (f_json_rel d) (f_raw d) (f_raw_rel d)) (lift decode_int));
     ("encryption_version", part f_version (fun d x => mkFields (f_texts d) (f_size d) x (f_json d) (f_json_rel d) (f_raw d) (f_raw_rel d)) (lift decode_float));
     ("json_raw", part f_json (fun d x => mkFields (f_texts d) (f_size d) (f_version d) x (f_json_rel d) (f_raw d) (f_raw_rel d)) (lift decode_bytes));
     ("json_raw_relative", part f_json_rel (fun d x => mkFields (f_texts d) (f_size d) (f_version d) (f_json d) x (f_raw d) (f_raw_rel d)) (lift decode_bytes));
     ("interface_raw", part f_raw (fun d x => mkFields (f_texts d) (f_size d) (f_version d) (f_json d) (f_json_rel d) x (f_raw_rel d)) decode_interface);
     ("interface_raw_relative", part f_raw_rel (fun d x => mkFields (f_texts d) (f_size d) (f_version d) (f_json d) (f_json_rel d) (f_raw d) x) decode_interface)]).
Proof.
  unfold message_field. destruct (is_any k text_keys) eqn:E; intro H.
  - apply text_keys_iff in E. injection H as <-. left. auto.
  - right. split; [rewrite <- text_keys_iff; congruence|]. apply by_name_in in H. exact H.
Qed.
Lemma text_field_keeps {B} (g : fields -> B) k :
  (forall d x, g (mkFields (upsert k x (f_texts d)) (f_size d) (f_version d) (f_json d) (f_json_rel d) (f_raw d) (f_raw_rel d)) = g d) -> keeps g (text_field k).
Proof. intro H. apply part_keeps. exact H. Qed.
Ltac other_fields := intros k' f' NE HF'; apply message_field_cases in HF'; destruct HF' as [[HI' ->]|[HI' HF']];
  [apply text_field_keeps; reflexivity|repeat (destruct HF' as [E'|HF']; [injection E' as <- <-; first [congruence | apply part_keeps; reflexivity]|]); destruct HF'].
Lemma text_keeps k : In k (map fst string_keys) -> forall k' f', k' <> k -> message_field k' = Some f' -> keeps (fun d => text_of d k) f'.
Proof.
  intros HI k' f' NE HF'. apply message_field_cases in HF'. destruct HF' as [[HI' ->]|[HI' HF']].
  - apply text_field_keeps. intros d x. unfold text_of. cbn. rewrite Lifecycle_proofs.assoc_upsert. destruct (String.eqb_spec k k'); [congruence|reflexivity].
  - repeat (destruct HF' as [E'|HF']; [injection E' as <- <-; apply part_keeps; reflexivity|]). destruct HF'.
Qed.
Lemma message_field_text k : In k (map fst string_keys) -> message_field k = Some (text_field k).
Proof. intro HI. apply text_keys_iff in HI. unfold message_field. rewrite HI. reflexivity. Qed.
Lemma message_of_text d k f : In (k, f) string_keys -> f (message_of d) = text_of d k.
Proof. intro HI. unfold string_keys in HI. repeat (destruct HI as [E|HI]; [injection E as <- <-; reflexivity|]). destruct HI. Qed.

Lemma fields_sound m t d t' : clean (YMap m) -> decode_struct message_field m no_fields t = (Ok (d, false), t') -> message_says m (message_of d).
Proof.
  intros HC H. pose proof (clean_distinct m HC) as HD.
  assert (HP : forall B (g : fields -> B) set h k (R : yaml -> B -> Prop), message_field k = Some (part g set h) -> (forall a b, g (set a b) = b) ->
    (forall k' f', k' <> k -> message_field k' = Some f' -> keeps g f') -> (forall y a t b t', clean y -> h y a t = (Ok (b, false), t') -> R y b) -> opt m k (g no_fields) R (g d)).
  { intros B g set h k R HF HG HK HR. pose proof (struct_part _ g set h k m HF HG HK _ _ _ _ HD H) as HO. eapply (opt_map (fun x => x)) in HO; [exact HO|].
    cbn. intros y b HY (t1 & t2 & E). eapply HR; [|exact E]. exact (at_key_clean _ _ _ HC HY). }
  split.
  - intros k f HI. rewrite (message_of_text d k f HI). pose proof (in_map fst _ _ HI) as HK. cbn in HK.
    apply (HP _ (fun d => text_of d k) _ _ k text (message_field_text k HK)).
    + intros a b. unfold text_of. cbn. rewrite Lifecycle_proofs.assoc_upsert, String.eqb_refl. reflexivity.
    + apply text_keeps. exact HK.
    + intros y a u b u' _ E. apply lift_ok in E. destruct E as [E _]. apply text_iff in E. exact E.
  - apply (HP _ f_size _ _ "request_size" whole eq_refl (fun _ _ => eq_refl)); [other_fields|]. intros y a u b u' _ E. apply lift_ok in E. destruct E as [E _]. apply whole_iff in E. exact E.
  - apply (HP _ f_version _ _ "encryption_version" (pointer f_zero number) eq_refl (fun _ _ => eq_refl)); [other_fields|]. intros y a u b u' _ E. apply lift_ok in E. destruct E as [E _]. apply version_iff in E. exact E.
  - apply (HP _ f_json _ _ "json_raw" (pointer "" bytes) eq_refl (fun _ _ => eq_refl)); [other_fields|]. intros y a u b u' _ E. apply lift_ok in E. destruct E as [E _]. apply bytes_iff in E. exact E.
  - apply (HP _ f_json_rel _ _ "json_raw_relative" (pointer "" bytes) eq_refl (fun _ _ => eq_refl)); [other_fields|]. intros y a u b u' _ E. apply lift_ok in E. destruct E as [E _]. apply bytes_iff in E. exact E.
  - apply (HP _ f_raw _ _ "interface_raw" (pointer GNil raw_value) eq_refl (fun _ _ => eq_refl)); [other_fields|]. intros y a u b u' HY E. apply (raw_iff y a u b HY). exists u'. exact E.
  - apply (HP _ f_raw_rel _ _ "interface_raw_relative" (pointer GNil raw_value) eq_refl (fun _ _ => eq_refl)); [other_fields|]. intros y a u b u' HY E. apply (raw_iff y a u b HY). exists u'. exact E.
Qed.
Lemma fields_accepts m msg : clean (YMap m) -> message_says m msg -> forall d t, exists d' t', decode_struct message_field m d t = (Ok (d', false), t').
Proof.
  intros HC HM. pose proof (clean_distinct m HC) as HD. apply struct_ok; auto. intros k y f HK HF. apply message_field_cases in HF. destruct HF as [[HI ->]|[_ HF]].
  - apply in_map_iff in HI. destruct HI as ((k0 & g) & <- & HI). cbn [fst] in *. apply part_accepts. eapply string_accepts. exact (opt_at _ _ _ _ _ _ HD (my_text _ _ HM _ _ HI) HK).
  - pose proof (at_key_clean _ _ _ HC HK) as HY.
    destruct HF as [E|[E|[E|[E|[E|[E|[]]]]]]]; injection E as <- <-; apply part_accepts; intros a t.
    + pose proof (opt_at _ _ _ _ _ _ HD (my_size _ _ HM) HK) as H. apply (whole_iff y a) in H. eexists _, _. apply lift_ok. split; [exact H|reflexivity].
    + pose proof (opt_at _ _ _ _ _ _ HD (my_version _ _ HM) HK) as H. apply (version_iff y a) in H. eexists _, _. apply lift_ok. split; [exact H|reflexivity].
    + pose proof (opt_at _ _ _ _ _ _ HD (my_json _ _ HM) HK) as H. apply (bytes_iff y a) in H. eexists _, _. apply lift_ok. split; [exact H|reflexivity].
    + pose proof (opt_at _ _ _ _ _ _ HD (my_json_rel _ _ HM) HK) as H. apply (bytes_iff y a) in H. eexists _, _. apply lift_ok. split; [exact H|reflexivity].
    + pose proof (opt_at _ _ _ _ _ _ HD (my_raw _ _ HM) HK) as H. apply (raw_iff y a t _ HY) in H. destruct H as [t' H]. eauto.
    + pose proof (opt_at _ _ _ _ _ _ HD (my_raw_rel _ _ HM) HK) as H. apply (raw_iff y a t _ HY) in H. destruct H as [t' H]. eauto.
Qed.
Lemma says_nothing : message_says [] (message_of no_fields).
Proof.
  assert (HN : forall k, no_key [] k) by (intros k y (key & _ & [])). split; try (left; split; [apply HN|reflexivity]).
  intros k f HI. left. split; [apply HN|]. rewrite (message_of_text _ _ _ HI). reflexivity.
Qed.
Lemma message_sound y t msg t' : clean y -> decode_message y t = (Ok (msg, false), t') -> message_text y msg.
Proof.
  intros HC H. unfold decode_message in H. apply pbind_ok in H. destruct H as ([d bad] & t1 & H1 & H2). apply pret_ok in H2. destruct H2 as [H2 ->]. injection H2 as <- ->.
  split; [repeat split|]. unfold decode_into in H1. destruct y as [s v|l|m].
  - destruct v; apply pret_ok in H1; destruct H1 as [H1 _]; try discriminate H1. injection H1 as <-. left. split; [exists s; reflexivity|exact says_nothing].
  - apply pret_ok in H1. destruct H1 as [H1 _]. discriminate H1.
  - right. exists m. split; [reflexivity|]. eapply fields_sound; eauto.
Qed.
Lemma message_accepts y msg t : clean y -> message_text y msg -> exists msg' t', decode_message y t = (Ok (msg', false), t').
Proof.
  intros HC [_ HM]. enough (HX : exists d t', decode_into no_fields message_field y no_fields t = (Ok (d, false), t')).
  { destruct HX as (d & t' & E). exists (message_of d), t'. unfold decode_message, pbind. rewrite E. reflexivity. }
  destruct HM as [[HN _]|(m & -> & HM)]; [exact (null_accepts no_fields message_field y HN no_fields t)|]. exact (fields_accepts m msg HC HM no_fields t).
Qed.

(** the message of a document is unique *)
Lemma pointer_fun {A} (z : A) (R : yaml -> A -> Prop) y x x' : (forall y a a', R y a -> R y a' -> a' = a) -> pointer z R y x -> pointer z R y x' -> x' = x.
Proof.
  intros HR H H'. destruct H as [t HI|t HI|y a HN HA]; inversion H' as [u HJ E|u HJ E|u b HM HB E]; subst; try reflexivity; try contradiction;
    try (exfalso; apply HM; eexists; reflexivity); try (exfalso; apply HN; eexists; reflexivity).
  f_equal. eauto.
Qed.
Lemma whole_fun y z z' : whole y z -> whole y z' -> z' = z.
Proof. rewrite <- !(whole_iff y 0%Z). congruence. Qed.
Lemma version_fun y z z' : pointer f_zero number y z -> pointer f_zero number y z' -> z' = z.
Proof. rewrite <- !(version_iff y None). congruence. Qed.
Lemma bytes_fun y z z' : pointer "" bytes y z -> pointer "" bytes y z' -> z' = z.
Proof. rewrite <- !(bytes_iff y None). congruence. Qed.
Lemma raw_fun y z z' : pointer GNil raw_value y z -> pointer GNil raw_value y z' -> z' = z.
Proof. apply pointer_fun. intros y0 a a' [H _] [H' _]. exact (value_fun _ _ _ H H'). Qed.
Lemma opt_eq {A} m k (a : A) (R : yaml -> A -> Prop) x x' : distinct_texts m -> (forall y b b', R y b -> R y b' -> b' = b) -> opt m k a R x -> opt m k a R x' -> x' = x.
Proof.
  intros HD HR [[HN ->]|(y & HY & H)] [[HN' ->]|(y' & HY' & H')]; auto; try (exfalso; eapply HN; eauto; fail); try (exfalso; eapply HN'; eauto; fail).
  pose proof (at_key_unique m k y y' HD HY HY') as ->. eauto.
Qed.
Lemma says_unique m msg msg' : distinct_texts m -> message_says m msg -> message_says m msg' -> fresh_message msg -> fresh_message msg' -> msg' = msg.
Proof.
  intros HD HM HM' HF HF'.
  assert (HT : forall k f, In (k, f) string_keys -> f msg' = f msg).
  { intros k f HI. exact (opt_eq m k "" text _ _ HD (fun y b b' => text_fun y b b') (my_text _ _ HM k f HI) (my_text _ _ HM' k f HI)). }
  pose proof (opt_eq _ _ _ _ _ _ HD whole_fun (my_size _ _ HM) (my_size _ _ HM')) as E1.
  pose proof (opt_eq _ _ _ _ _ _ HD version_fun (my_version _ _ HM) (my_version _ _ HM')) as E2.
  pose proof (opt_eq _ _ _ _ _ _ HD bytes_fun (my_json _ _ HM) (my_json _ _ HM')) as E3.
  pose proof (opt_eq _ _ _ _ _ _ HD bytes_fun (my_json_rel _ _ HM) (my_json_rel _ _ HM')) as E4.
  pose proof (opt_eq _ _ _ _ _ _ HD raw_fun (my_raw _ _ HM) (my_raw _ _ HM')) as E5.
  pose proof (opt_eq _ _ _ _ _ _ HD raw_fun (my_raw_rel _ _ HM) (my_raw_rel _ _ HM')) as E6.
  destruct HF as (F1 & F2 & F3 & F4 & F5 & F6 & F7). destruct HF' as (G1 & G2 & G3 & G4 & G5 & G6 & G7). clear HM HM' HD.
  assert (HA : Forall (fun e => snd e msg' = snd e msg) string_keys) by (apply Forall_forall; intros [k f] HI; exact (HT k f HI)). clear HT.
  unfold string_keys in HA. repeat match goal with H : Forall _ (_ :: _) |- _ => apply Forall_cons_iff in H; destruct H as [? H] end. cbn [snd] in *. clear HA.
  destruct msg, msg'. cbn in *. subst. reflexivity.
Qed.
Lemma message_unique y msg msg' : clean y -> message_text y msg -> message_text y msg' -> msg' = msg.
Proof.
  intros HC [HF [[[s ->] HM]|(m & -> & HM)]] [HF' [[[s' E] HM']|(m' & E & HM')]]; try discriminate E.
  - eapply says_unique; eauto. exists []. split; constructor.
  - injection E as <-. eapply says_unique; eauto. apply clean_distinct. auto.
Qed.
Lemma message_exact y msg t : clean y -> (exists t', decode_message y t = (Ok (msg, false), t')) <-> message_text y msg.
Proof.
  intro HC. split; [intros [t' H]; eapply message_sound; eauto|]. intro HM. destruct (message_accepts y msg t HC HM) as (msg' & t' & E). exists t'.
  rewrite E. pose proof (message_sound y t msg' t' HC E) as HM'. rewrite (message_unique y msg msg' HC HM HM'). reflexivity.
Qed.

(** ** Lists of messages *)
Lemma messages_list l : forall t ms, Forall clean l -> (exists t', decode_structs decode_message l t = (Ok (ms, false), t')) <-> Forall2 message_text l ms.
Proof.
  induction l as [|y l IH]; intros t ms HC.
  - split; [intros [t' H]; cbn in H; apply pret_ok in H; destruct H as [H _]; injection H as <-; constructor|]. intro H. inversion H. exists t. reflexivity.
  - inversion HC as [|? ? C1 C2]; subst. split.
    + intros [t' H]. apply structs_cons in H. destruct H as (x & xs & t1 & -> & H1 & H2). constructor; [eapply message_sound; eauto|]. apply (IH t1 xs C2). eauto.
    + intro H. inversion H as [|? x ? xs HX HXS]; subst. apply (message_exact y x t C1) in HX. destruct HX as [t1 E1]. apply (IH t1 xs C2) in HXS. destruct HXS as [t2 E2]. exists t2.
      cbn [decode_structs]. unfold pbind. rewrite E1, E2. reflexivity.
Qed.
Theorem decode_messages_exact y ms t : clean y -> (exists t', decode_messages y t = (Ok (ms, false), t')) <-> messages_text y ms.
Proof.
  intro HC. unfold decode_messages, decode_into. destruct y as [s v|l|m].
  - split.
    + intros [t' H]. destruct v; apply pret_ok in H; destruct H as [H _]; try discriminate H. injection H as <-. left. split; [exists s|]; reflexivity.
    + intros [[[s' E] ->]|(m & E & _)]; [|discriminate E]. injection E as <- ->. exists t. reflexivity.
  - split; [intros [t' H]; apply pret_ok in H; destruct H as [H _]; discriminate H|]. intros [[[s' E] _]|(m & E & _)]; discriminate E.
  - pose proof (clean_distinct m HC) as HD. split.
    + intros [t' H].
      pose proof (struct_field (by_name [("messages", decode_list decode_message)]) (fun x : list message => x) "messages" (decode_list decode_message) m eq_refl) as HS.
      specialize (HS ltac:(intros k' f' NE HF; apply by_name_in in HF; destruct HF as [E|[]]; injection E as <- <-; congruence) _ _ _ _ HD H).
      right. exists m. split; [reflexivity|]. eapply (opt_map (fun x => x)) in HS; [exact HS|]. cbn. intros y b HY (a1 & t2 & a2 & t3 & -> & E & ->). pose proof (at_key_clean _ _ _ HC HY) as HCy.
      unfold decode_list in E. destruct y as [s v|l|m'].
      * destruct v; apply pret_ok in E; destruct E as [E _]; try discriminate E. injection E as <-. constructor.
      * constructor. apply (messages_list l t2); [apply in_clean; auto|eauto].
      * apply pret_ok in E. destruct E as [E _]. discriminate E.
    + intros [[[s' E] _]|(m' & E & HO)]; [discriminate E|]. injection E as <-.
      assert (HX : exists ms' t', decode_struct (by_name [("messages", decode_list decode_message)]) m [] t = (Ok (ms', false), t') /\ ms' = ms).
      { destruct (struct_ok (by_name [("messages", decode_list decode_message)]) m HD) with (a := @nil message) (t := t) as (ms' & t' & E).
        - intros k y f HK HF a u. apply by_name_in in HF. destruct HF as [E|[]]; injection E as <- <-. pose proof (at_key_clean _ _ _ HC HK) as HCy.
          pose proof (opt_at _ _ _ _ _ y HD HO HK) as HL. destruct HL as [s|l xs HF]; [exists [], u; reflexivity|]. cbn [decode_list]. apply (messages_list l u xs (in_clean l HCy)) in HF. destruct HF as [u' E]. eauto.
        - exists ms', t'. split; [exact E|].
          pose proof (struct_field (by_name [("messages", decode_list decode_message)]) (fun x : list message => x) "messages" (decode_list decode_message) m eq_refl) as HS.
          specialize (HS ltac:(intros k' f' NE HF; apply by_name_in in HF; destruct HF as [E'|[]]; injection E' as <- <-; congruence) _ _ _ _ HD E).
          eapply (opt_map (fun x => x) _ _ _ _ (listing message_text)) in HS.
          + destruct HS as [[HN ->]|(y & HY & HL)], HO as [[HN' ->]|(y' & HY' & HL')]; auto; try (exfalso; eapply HN; eauto; fail); try (exfalso; eapply HN'; eauto; fail).
            pose proof (at_key_unique m _ y y' HD HY HY') as ->. pose proof (at_key_clean _ _ _ HC HY) as HCy. destruct HL as [u|l xs HF]; inversion HL' as [u' E1 E2|l' xs' HF' E1 E2]; subst; [reflexivity|].
            pose proof (in_clean l HCy) as HCl. clear -HF HF' HCl. revert ms HF'. induction HF as [|z x l xs HX _ IH]; intros ms HF'; inversion HF' as [|? x' ? xs' HX' HXS]; subst; [reflexivity|].
            inversion HCl; subst. f_equal; [symmetry; eapply message_unique; eauto|auto].
          + cbn. intros y b HY (a1 & t2 & a2 & t3 & -> & E' & ->). pose proof (at_key_clean _ _ _ HC HY) as HCy. unfold decode_list in E'. destruct y as [s v|l|m'].
            * destruct v; apply pret_ok in E'; destruct E' as [E' _]; try discriminate E'. injection E' as <-. constructor.
            * constructor. apply (messages_list l t2); [apply in_clean; auto|eauto].
            * apply pret_ok in E'. destruct E' as [E' _]. discriminate E'. }
      destruct HX as (ms' & t' & E & ->). eauto.
Qed.
Theorem messages_unique y ms ms' : clean y -> messages_text y ms -> messages_text y ms' -> ms' = ms.
Proof.
  intros HC H H'. apply (decode_messages_exact y ms 0 HC) in H. apply (decode_messages_exact y ms' 0 HC) in H'. destruct H as [t H], H' as [t' H']. rewrite H in H'. injection H' as ->. reflexivity.
Qed.

(** ** No panics *)
Lemma interface_no_panic y a t t' : decode_interface y a t = (Panic, t') -> False.
Proof.
  unfold decode_interface. destruct y as [s v|l|m]; [destruct (null_text s v); discriminate| |]; destruct (decode_any _); discriminate.
Qed.
Lemma decode_message_no_panic y t t' : decode_message y t = (Panic, t') -> False.
Proof.
  unfold decode_message. intro H. apply pbind_eq in H. destruct H as [([d bad] & t1 & H1 & H2)|[[H _]|[_ H]]]; [discriminate H2|discriminate H|].
  apply into_panic in H. destruct H as (m & k & z & f & a1 & t1 & t2 & _ & _ & HF & H). apply message_field_cases in HF. destruct HF as [[_ ->]|[_ HF]]; [apply part_panic in H; discriminate H|].
  repeat (destruct HF as [E|HF]; [injection E as <- <-; apply part_panic in H; first [discriminate H | exact (interface_no_panic _ _ _ _ H)]|]). destruct HF.
Qed.
Section WithLib.
Variable L : Lib.
Theorem messages_no_panic y t : fst (read_messages L y t) <> Panic.
Proof.
  intro H. destruct (read_messages L y t) as [r t'] eqn:E. cbn in H. subst r. unfold read_messages in E. apply pbind_eq in E. destruct E as [(ms & t1 & H1 & H2)|[[E _]|[_ E]]]; [|discriminate E|].
  - injection H2 as H2 _. pose proof (complete_all L ms) as HX. rewrite H2 in HX. exact HX.
  - unfold finish in E. apply pbind_eq in E. destruct E as [([b bad] & t1 & H1 & H2)|[[E _]|[_ E]]]; [destruct bad; discriminate H2|discriminate E|].
    apply into_panic in E. destruct E as (m & k & z & f & a1 & t1 & t2 & _ & _ & HB & E). apply by_name_in in HB. destruct HB as [EB|[]]. injection EB as <- <-.
    apply list_panic in E. destruct E as (l & w & t3 & t4 & _ & _ & E). exact (decode_message_no_panic _ _ _ E).
Qed.

(** ** Derived fields *)
Lemma labels_from s : labels_given s (unmarshal_labels L (add_quotes s) []).
Proof.
  split.
  - intros ls HN HF HS. exact (labels_read L ls s [] HN HF HS).
  - intros items HF HE HS. exact (bad_labels L items s [] HF HE HS).
  - intro HL. rewrite (plain_labels L _ s [] HL eq_refl). destruct (String.eqb _ _); reflexivity.
Qed.
Lemma address_from s : address L s (net_ip L s).
Proof. unfold address, net_ip. destruct (parse_ip L s); auto. Qed.
Lemma completed_loaded m m' : TimeSpec L -> fresh_message m -> completed L m m' -> loaded_message L m m'.
Proof.
  intros HT (_ & _ & _ & _ & _ & F1 & F2) (H1 & H2 & (t & H3 & H4) & H5 & H6 & H7 & H8). rewrite F1 in H7. rewrite F2 in H8. split; auto.
  - pose proof (time_info L m) as HI. rewrite H3 in HI. destruct HI as ([[[h mi] s] ns] & HP & _ & _ & _ & _ & HX). cbv iota zeta in HX. destruct HX as (X1 & X2 & X3). destruct H4 as (Y1 & Y2 & Y3).
    exists h, mi, s, ns. split; [exact HP|]. rewrite <- Y1, <- Y2, <- Y3, X1, X2, X3. exact (clock_within h mi s ns (HT _ _ HP)).
  - rewrite H5. apply address_from.
  - rewrite H6. apply address_from.
  - rewrite H7. apply labels_from.
  - rewrite H8. apply labels_from.
Qed.
Lemma texts_fresh y ms : messages_text y ms -> Forall fresh_message ms.
Proof.
  intros [[_ ->]|(m & _ & [[_ ->]|(z & _ & HL)])]; try constructor. destruct HL as [t|l xs HF]; [constructor|]. induction HF as [|? ? ? ? [H _] _ IH]; constructor; auto.
Qed.
Lemma completed_all_loaded ms ms' : TimeSpec L -> Forall fresh_message ms -> Forall2 (completed L) ms ms' -> Forall2 (loaded_message L) ms ms'.
Proof. intros HT HF H. induction H as [|m m' ms ms' H _ IH]; constructor; inversion HF; subst; auto using completed_loaded. Qed.

Theorem messages_sound y t ms' t' : TimeSpec L -> clean y -> read_messages L y t = (Ok ms', t') ->
  exists ms, messages_text y ms /\ Forall2 (loaded_message L) ms ms'.
Proof.
  intros HT HC H. unfold read_messages in H. apply pbind_ok in H. destruct H as (ms & t1 & H1 & H2). apply pret_ok in H2. destruct H2 as [H2 _].
  unfold finish in H1. apply pbind_ok in H1. destruct H1 as ([ms1 bad] & t2 & H1 & H3). destruct bad; apply pret_ok in H3; destruct H3 as [H3 _]; [discriminate H3|]. injection H3 as ->.
  assert (HM : messages_text y ms) by (apply (decode_messages_exact y ms t HC); eauto). exists ms. split; [exact HM|].
  pose proof (complete_all L ms) as HX. rewrite H2 in HX. exact (completed_all_loaded ms ms' HT (texts_fresh y ms HM) HX).
Qed.
Theorem messages_accepted y ms t : TimeSpec L -> clean y -> messages_text y ms ->
  (Forall (timed L) ms -> exists ms' t', read_messages L y t = (Ok ms', t') /\ Forall2 (loaded_message L) ms ms') /\
  (~ Forall (timed L) ms -> exists t', read_messages L y t = (Err, t')).
Proof.
  intros HT HC HM. pose proof (texts_fresh y ms HM) as HF. apply (decode_messages_exact y ms t HC) in HM. destruct HM as [t1 HM].
  assert (E : read_messages L y t = (complete_messages L ms, t1)). { unfold read_messages, finish, pbind. rewrite HM. reflexivity. }
  rewrite E. pose proof (complete_all L ms) as HX. destruct (complete_messages L ms) as [ms'| |].
  - pose proof (completed_all_loaded ms ms' HT HF HX) as HL. split; [intros _; exists ms', t1; auto|]. intro HN. exfalso. apply HN. clear -HX. induction HX; constructor; auto. eapply completed_time; eauto.
  - split; [|eauto]. intro HA. exfalso. clear -HA HX. induction HX as [m ms HP|m ms _ IH]; inversion HA; subst; auto.
  - destruct HX.
Qed.
Theorem messages_refused y t : clean y -> (~ exists ms, messages_text y ms) -> exists t', read_messages L y t = (Err, t').
Proof.
  intros HC HN. destruct (read_messages L y t) as [r t'] eqn:E. exists t'. f_equal. destruct r as [ms'| |]; [|reflexivity|].
  - exfalso. apply HN. unfold read_messages in E. apply pbind_ok in E. destruct E as (ms & t1 & H1 & _). unfold finish in H1. apply pbind_ok in H1. destruct H1 as ([ms1 bad] & t2 & H1 & H3).
    destruct bad; apply pret_ok in H3; destruct H3 as [H3 _]; [discriminate H3|]. injection H3 as ->. exists ms. apply (decode_messages_exact y ms t HC). eauto.
  - exfalso. apply (messages_no_panic y t). rewrite E. reflexivity.
Qed.

(** ** Single messages *)
Lemma read_message_text y msg s t : clean y -> message_text y msg -> exists t', read_message L y s t = (yaml_read_message L (Some msg) s, t').
Proof.
  intros HC HM. apply (message_exact y msg t HC) in HM. destruct HM as [t' HM]. exists t'. unfold read_message, finish, pbind. rewrite HM. reflexivity.
Qed.
Lemma read_message_refused y s t : clean y -> (~ exists msg, message_text y msg) -> exists t', read_message L y s t = (Err, t').
Proof.
  intros HC HN. unfold read_message, finish, pbind. destruct (decode_message y t) as [[[msg bad]| |] t'] eqn:E.
  - destruct bad; [exists t'; reflexivity|]. exfalso. apply HN. exists msg. apply (message_exact y msg t HC). eauto.
  - exists t'. reflexivity.
  - destruct (decode_message_no_panic _ _ _ E).
Qed.
Lemma written_at m es k v : Forall2 entry_text m es -> In (k, v) es -> exists y, at_key m k y /\ text y v.
Proof.
  intros HW HI. induction HW as [|[key y] [k' v'] m es [H1 H2] _ IH]; [destruct HI|]. destruct HI as [E|HI].
  - injection E as -> ->. exists y. split; [exists key; split; [exact H1|left; reflexivity]|exact H2].
  - destruct (IH HI) as (z & (key' & HT & HZ) & HV). exists z. split; [exists key'; split; [exact HT|right; exact HZ]|exact HV].
Qed.
Lemma at_written m es k y : Forall2 entry_text m es -> at_key m k y -> exists v, In (k, v) es /\ text y v.
Proof.
  intros HW (key & HT & HI). induction HW as [|[key' y'] [k' v'] m es [H1 H2] _ IH]; [destruct HI|]. cbn [fst snd] in *. destruct HI as [E|HI].
  - injection E as -> ->. exists v'. split; [left; rewrite (text_fun _ _ _ HT H1); reflexivity|exact H2].
  - destruct (IH HI) as (v & HV & HX). exists v. split; [right; exact HV|exact HX].
Qed.
Lemma written_describes m es msg : clean (YMap m) -> Forall2 entry_text m es -> message_text (YMap m) msg -> plain_entries L m es msg -> describes L es msg.
Proof.
  intros HC HW [_ [[[s E] _]|(m' & E & HM)]] [P1 P2 P3 P4 P5]; [discriminate E|]. injection E as <-. pose proof (clean_distinct m HC) as HD.
  assert (HK : map fst es = map fst es -> Forall2 (fun e k => text (fst e) k) m (map fst es)).
  { intros _. clear -HW. induction HW as [|e f m es [H _] _ IH]; constructor; auto. }
  specialize (HK eq_refl).
  assert (HNo : forall k, no_key m k -> ~ In k (map fst es)).
  { intros k HN HI. apply in_map_iff in HI. destruct HI as ([k' v] & <- & HI). destruct (written_at m es _ _ HW HI) as (y & HY & _). exact (HN y HY). }
  split; auto.
  - destruct HD as (ks & H1 & H2). assert (EK : map fst es = ks); [|rewrite EK; exact H2]. clear -HK H1. revert ks H1. induction HK as [|e k m l HT _ IH]; intros ks H1; inversion H1; subst; [reflexivity|]. f_equal; [eapply text_fun; eauto|auto].
  - intros k f HI. destruct (my_text _ _ HM k f HI) as [[HN HE]|(y & HY & HT)]; [right; auto|left]. destruct (at_written m es k y HW HY) as (v & HV & HX). rewrite (text_fun _ _ _ HX HT) in *. exact HV.
  - destruct (my_size _ _ HM) as [[HN HE]|(y & HY & _)]; [right; auto|left]. destruct (at_written m es _ y HW HY) as (v & HV & HX). pose proof (P3 y HY) as HT. rewrite (text_fun _ _ _ HX HT) in *. exact HV.
  - destruct (my_version _ _ HM) as [[HN HE]|(y & HY & _)]; [right; auto|left]. destruct (at_written m es _ y HW HY) as (v & HV & HX). destruct (P4 y HY) as (x & u & HX1 & HX2 & HX3). exists v, x, u. auto.
  - pose proof (P5 "json_raw" ltac:(left; reflexivity)) as N1. pose proof (P5 "json_raw_relative" ltac:(right; left; reflexivity)) as N2. pose proof (P5 "interface_raw" ltac:(right; right; left; reflexivity)) as N3.
    pose proof (P5 "interface_raw_relative" ltac:(right; right; right; left; reflexivity)) as N4.
    rewrite (opt_none _ _ _ _ _ N1 (my_json _ _ HM)), (opt_none _ _ _ _ _ N2 (my_json_rel _ _ HM)), (opt_none _ _ _ _ _ N3 (my_raw _ _ HM)), (opt_none _ _ _ _ _ N4 (my_raw_rel _ _ HM)). auto.
Qed.
End WithLib.

(** ** Rules and messages from documents *)
Theorem documents_decide (L : Lib) p ord ord' g re_text y z ms t u w : RegexSpec L -> CidrSpec L -> NumberSpec L -> TimeSpec L -> jp_prepare L "$.*" <> None ->
  (forall rest, jp_prepare L ("$RELATIVE" ++ rest) = None) -> fair ord -> fair ord' ->
  clean y -> plain_rules y -> (exists rs, rules_text L y rs) -> clean z -> messages_text z ms -> Forall (timed L) ms ->
  (forall rs, rules_text L y rs -> Forall (underived L) rs -> Forall (ordinary L p) rs /\ Forall (preparable_rule L p) rs /\
     forall m ms' w', read_messages L z w = (Ok ms', w') -> In m ms' -> ascii_message m /\ Forall (fun r => rule_covered L p r m) rs) ->
  exists rs ss ms' u' w', rules_text L y rs /\ read_rules_with L ord' re_text p y u = (Ok ss, u') /\ read_messages L z w = (Ok ms', w') /\ Forall2 (loaded_message L) ms ms' /\
    Forall (fun m => exists o e, check L ord g ss (mkEst m t) = (Some o, e) /\
      Forall2 (fun r d => verdict L p r m d) rs (out_results o) /\ decision_is_strictest (out_results o) (out_decision o)) ms'.
Proof.
  intros H1 H2 H3 HT H4 H5 HF HF' HC HP [rs0 HR0] HZ HM HA HX.
  destruct (rules_accepted L ord' re_text HF' y rs0 u HC HP HR0) as (rs & u1 & E). destruct (rules_sound L ord' re_text HF' y u rs u1 HC E) as [HR HU]. specialize (HU HP).
  destruct (HX rs HR HU) as (O1 & O2 & O3). destruct (proj1 (messages_accepted L z ms w HT HZ HM) HA) as (ms' & w' & EM & HL).
  destruct (list_loads L p H1 ord' rs HF' O1 u1) as ([_ HLd] & _ & _). destruct (HLd O2) as (ss & u' & EL).
  exists rs, ss, ms', u', w'. split; [exact HR|]. split; [unfold read_rules_with, pbind; rewrite E; exact EL|]. split; [exact EM|]. split; [exact HL|].
  apply Forall_forall. intros m HI. destruct (O3 m ms' w' EM HI) as [HAs HCo].
  destruct (loaded_check_written L p ord ord' g rs m t u1 H1 H2 H3 H4 H5 HF HF' HAs O1 O2 HCo) as (ss' & t' & o & e & E1 & E2 & E3 & E4).
  rewrite EL in E1. injection E1 as <- <-. eauto 7.
Qed.
