(** Names, operations, resources and lists that are UTF-8 texts. *)
From Coq Require Import List String Ascii Bool Arith ZArith Lia.
From Verif Require Import Base GoStr GoStr_facts GoFloat Types Json StrUtils Validate Prepare Parse Marshal
  Lifecycle Eval Check Tree_proofs Tree_truth Spec_Decision Spec_Match Check_proofs Match_proofs
  Spec_Regex Spec_Glob Glob_proofs Names_proofs Spec_Tree Tree_laws Spec_Leaf Number_proofs Leaf_proofs Leaf_laws Spec_Utf8 Utf8_proofs.
Import ListNotations.
Open Scope string_scope.

Lemma items8 s : pattern8 s -> Forall pattern8 (split_char "," s).
Proof.
  intros [HU HP]. pose proof (utf8_items _ HU) as H1. pose proof (split_pattern_ok _ _ HP) as H2. apply Forall_forall. intros x HI.
  split; [apply (proj1 (Forall_forall _ _) H1 x HI)|apply (proj1 (Forall_forall _ _) H2 x HI)].
Qed.

Section WithLib.
Variable L : Lib.
Hypothesis HRE : Utf8RegexSpec L.

Lemma expand_name_entry8 ty item x t : ty <> "subnet" -> pattern8 item -> utf8 t ->
  expand_one L ty item = Ok x -> x_type x = ty /\ (accepts L (x_regexp x) t <-> glob8 (without_spaces item) t).
Proof.
  intros NS HP HT. unfold expand_one. rewrite (proj2 (String.eqb_neq ty "subnet") NS). simpl.
  destruct (name_regex8 L HRE item (proj1 HP) (proj2 HP)) as (re & E & HM). simpl in E. rewrite E. intro H; injection H; intros; subst. simpl.
  split; auto. unfold accepts. rewrite <- (HM t HT). split; [intros (r' & E' & H')|]; eauto. congruence.
Qed.

Theorem sender_names8 p r r' m : ru_converted r = false -> prepare_rule L p r = Ok r' ->
  In (ru_sender_type r) ["*"; "workload"] -> pattern8 (ru_sender_name r') -> utf8 (m_source_service m) ->
  (sender_matches L r' m <-> name_accepts8 (ru_sender_name r') (m_source_service m)).
Proof.
  intros HV H HT HP HA. apply prepared_fields in H; auto.
  destruct H as (_ & _ & E1 & _ & _ & _ & _ & _ & _ & _ & _ & _ & _ & H & _).
  unfold expand in H. apply rmapM_Forall2 in H. rewrite name_accepts8_iff. unfold sender_matches. symmetry.
  assert (NS : ru_sender_type r' <> "subnet") by (rewrite E1; intro E0; rewrite E0 in HT; simpl in HT; intuition discriminate).
  eapply Forall2_Exists; [exact H|]. intros item x HI HX. simpl in HX.
  assert (HPI : pattern8 item) by exact (proj1 (Forall_forall _ _) (items8 _ HP) item HI).
  destruct (expand_name_entry8 _ _ _ _ NS HPI HA HX) as [ET HM]. rewrite <- HM. unfold sender_entry. rewrite ET.
  rewrite E1 in *. simpl in HT. intuition congruence.
Qed.

Theorem receiver_names8 p r r' m : ru_converted r = false -> prepare_rule L p r = Ok r' ->
  In (ru_receiver_type r) ["*"; "workload"] -> pattern8 (ru_receiver_name r') -> utf8 (m_dest_service m) ->
  (receiver_matches L r' m <-> name_accepts8 (ru_receiver_name r') (m_dest_service m)).
Proof.
  intros HV H HT HP HA. apply prepared_fields in H; auto.
  destruct H as (_ & _ & _ & E1 & _ & _ & _ & _ & _ & _ & _ & _ & _ & _ & H & _).
  unfold expand in H. apply rmapM_Forall2 in H. rewrite name_accepts8_iff. unfold receiver_matches. symmetry.
  assert (NS : ru_receiver_type r' <> "subnet") by (rewrite E1; intro E0; rewrite E0 in HT; simpl in HT; intuition discriminate).
  eapply Forall2_Exists; [exact H|]. intros item x HI HX. simpl in HX.
  assert (HPI : pattern8 item) by exact (proj1 (Forall_forall _ _) (items8 _ HP) item HI).
  destruct (expand_name_entry8 _ _ _ _ NS HPI HA HX) as [ET HM]. rewrite <- HM. unfold receiver_entry. rewrite ET.
  assert (NH : ru_receiver_type r <> "hostname") by (simpl in HT; intros E; rewrite E in HT; intuition discriminate).
  rewrite E1 in *. simpl in HT. intuition congruence.
Qed.

Theorem receiver_hosts8 p r r' m : ru_converted r = false -> prepare_rule L p r = Ok r' ->
  ru_receiver_type r = "hostname" -> pattern8 (ru_receiver_name r') -> utf8 (m_host m) ->
  (receiver_matches L r' m <-> name_accepts8 (ru_receiver_name r') (m_host m)).
Proof.
  intros HV H HT HP HA. apply prepared_fields in H; auto.
  destruct H as (_ & _ & _ & E1 & _ & _ & _ & _ & _ & _ & _ & _ & _ & _ & H & _).
  unfold expand in H. apply rmapM_Forall2 in H. rewrite name_accepts8_iff. unfold receiver_matches. symmetry.
  assert (NS : ru_receiver_type r' <> "subnet") by (rewrite E1, HT; discriminate).
  eapply Forall2_Exists; [exact H|]. intros item x HI HX. simpl in HX.
  assert (HPI : pattern8 item) by exact (proj1 (Forall_forall _ _) (items8 _ HP) item HI).
  destruct (expand_name_entry8 _ _ _ _ NS HPI HA HX) as [ET HM]. rewrite <- HM. unfold receiver_entry. rewrite ET.
  rewrite E1, HT in *. intuition discriminate.
Qed.

Theorem operation_texts8 p r r' m : ru_converted r = false -> prepare_rule L p r = Ok r' ->
  pattern8 (ru_operation r) -> utf8 (m_method m) ->
  (operation_matches L r' m <-> operation_accepts8 (ru_operation r) (m_method m)).
Proof.
  intros HV H HP HA. apply prepared_fields in H; auto.
  destruct H as (_ & _ & _ & _ & _ & _ & _ & EO & _ & _ & _ & _ & _ & _ & _ & (re & E & ER) & _).
  rewrite EO in E. destruct (operation_regex8 L HRE _ HP) as (re' & E' & HM).
  unfold operation_matches. rewrite ER, accepts_some. assert (re = re') by congruence. subst. apply HM; auto.
Qed.

Theorem resource_texts8 p r r' m : ru_converted r = false -> prepare_rule L p r = Ok r' ->
  pattern8 (ru_resource_name r) -> ascii_text (ru_protocol r) \/ ascii_text (m_protocol m) -> utf8 (m_path m) -> utf8 (m_dest_port m) ->
  (resource_matches L r' m <->
     (ru_protocol r = "tcp" /\ list_accepts8 (ru_resource_name r) (m_dest_port m))
     \/ ru_protocol r = "*"
     \/ (ru_protocol r <> "tcp" /\ ru_protocol r <> "*" /\
         same_folded (m_protocol m) (ru_protocol r) /\
         (ru_resource_type r = "*" \/ m_context_type m = ru_resource_type r) /\
         list_accepts8 (ru_resource_name r) (m_path m))).
Proof.
  intros HV H HP _ HA1 HA2. apply prepared_fields in H; auto.
  destruct H as (_ & _ & _ & _ & EP & ET & EN & _ & _ & _ & _ & _ & _ & _ & _ & _ & (re & E & ER) & _).
  rewrite EN in E. destruct (wildcards_regex8 L HRE _ HP) as (re' & E' & HM).
  assert (re = re') by congruence. subst.
  unfold resource_matches. rewrite ER, EP, ET, !accepts_some, !HM by auto. reflexivity.
Qed.

Theorem names_prepare8 ty name : ty <> "subnet" -> pattern8 name -> exists xs, expand L name ty = Ok xs.
Proof.
  intros NS HP. unfold expand. apply items8 in HP. induction HP as [|item l HI HL IH].
  - exists []; auto.
  - destruct IH as [xs IH]. cbn [rmapM]. rewrite IH. unfold expand_one.
    rewrite (proj2 (String.eqb_neq ty "subnet") NS). simpl.
    destruct (name_regex8 L HRE item (proj1 HI) (proj2 HI)) as (re & E & _). simpl in E. rewrite E. simpl. eauto.
Qed.


(** lists *)
Lemma bare_list8 l : Forall plain_item8 l -> all_chars (fun c => c <> "["%char /\ c <> "]"%char /\ c <> "$"%char) (String.concat "," l).
Proof.
  intro HF. apply concat_chars; [|simpl; repeat split; discriminate].
  eapply Forall_impl; [|exact HF]. intros a [_ Ha]. eapply all_chars_impl; [|exact Ha]. intros c [HC _].
  repeat split; intros ->; apply HC; simpl; tauto.
Qed.
Lemma alternatives8 l v : l <> [] -> Forall plain_item8 l -> v = list_value l \/ v = String.concat "," l -> list_to_alternatives v = words l.
Proof.
  intros HN HF HV. pose proof (bare_list8 l HF) as HB.
  assert (HC : Forall (all_chars (fun c => c <> ","%char)) l).
  { eapply Forall_impl; [|exact HF]. intros a [_ Ha]. eapply all_chars_impl; [|exact Ha]. simpl. tauto. }
  assert (E1 : cmap (subst1 "[" "") (String.concat "," l) = String.concat "," l).
  { apply cmap_id. eapply all_chars_impl; [|exact HB]. simpl. intros c [H _]. unfold subst1. rewrite (proj2 (Ascii.eqb_neq c "[")); auto. }
  assert (E2 : cmap (subst1 "]" "") (String.concat "," l) = String.concat "," l).
  { apply cmap_id. eapply all_chars_impl; [|exact HB]. simpl. intros c [_ [H _]]. unfold subst1. rewrite (proj2 (Ascii.eqb_neq c "]")); auto. }
  destruct HV as [->| ->]; unfold list_to_alternatives; rewrite !replace_all_one.
  - unfold list_value. rewrite !cmap_app, E1. cbn [cmap]. rewrite !cmap_app, E2. cbn [cmap]. simpl. rewrite append_nil_r. apply words_concat; auto.
  - rewrite E1, E2. apply words_concat; auto.
Qed.
Lemma plain_value8 l v : Forall plain_item8 l -> v = list_value l \/ v = String.concat "," l -> plain_value v.
Proof.
  intros HF HV. pose proof (bare_list8 l HF) as HC. destruct HV as [->|E].
  - split; intros [r E]; discriminate.
  - rewrite <- E in HC. split; intros [r ->]; simpl in HC; tauto.
Qed.
Theorem list_membership8 p att method value v ret c k m t l b : NumberSpec L ->
  method_is method k -> prepares L p att method value ret c -> replaced p method value v ->
  l <> [] -> Forall plain_item8 l -> v = list_value l \/ v = String.concat "," l ->
  shows L att m (Present t) -> utf8 t -> may_return L (NCond c) m b ->
  (k = KIn -> (b = true <-> In t l)) /\ (k = KNin -> (b = true <-> ~ In t l)).
Proof.
  intros HN HM HP HR NL HF HV HS HA HB.
  pose proof (plain_value8 _ _ HF HV) as PV.
  apply (condition_iff _ _ _ _ _ _ _ v k _ _ _ HN HP HR PV HM HS) in HB. simpl in HB.
  destruct (words_regex8 L HRE l NL) as [(re & E & HM8) _].
  { eapply Forall_impl; [|exact HF]. intros a [Ha _]. exact Ha. }
  { eapply Forall_impl; [|exact HF]. intros a [_ Ha]. eapply all_chars_impl; [|exact Ha]. simpl. tauto. }
  specialize (HM8 t HA). rewrite <- (alternatives8 l v NL HF HV) in E.
  split; intros ->; rewrite HB; simpl; rewrite E.
  - split; [intros (re1 & E1 & M1)|intro I; exists re; split; auto; apply HM8; auto]. apply HM8. congruence.
  - rewrite <- HM8. split.
    + intros (re1 & E1 & M1). congruence.
    + intro NI. exists re. split; auto. destruct (re_match L re t); auto. exfalso. auto.
Qed.
End WithLib.

(** ** On ASCII texts a character is a byte *)
Lemma ascii_app a b : ascii_text (a ++ b) <-> ascii_text a /\ ascii_text b.
Proof. induction a as [|c a IH]; cbn [append ascii_text]; tauto. Qed.
Inductive widened : rx -> rx -> Prop :=
| w_same r : widened r r
| w_any : widened any_char any_rune
| w_seq a a' b b' : widened a a' -> widened b b' -> widened (RSeq a b) (RSeq a' b')
| w_alt a a' b b' : widened a a' -> widened b b' -> widened (RAlt a b) (RAlt a' b')
| w_star a a' : widened a a' -> widened (RStar a) (RStar a').
Lemma star_simulated (a a' : rx) p m q : (forall p m q, ascii_text m -> mat a p m q -> mat a' p m q) -> ascii_text m ->
  mat (RStar a) p m q -> mat (RStar a') p m q.
Proof.
  intros HI HM H. remember (RStar a) as r. revert Heqr HM. induction H; intros E HM; inversion E; subst; [constructor|].
  apply ascii_app in HM. destruct HM. constructor; auto.
Qed.
Lemma rune_ascii p m q : ascii_text m -> (mat any_char p m q <-> mat any_rune p m q).
Proof.
  intro HA. rewrite mat_rune. unfold any_char. split.
  - intro H. inversion H as [|f c p0 q0 HF| | | | | | |]; subst. destruct HA as [HC _]. split; [apply low_char; exact HC|].
    intro E. injection E as ->. discriminate.
  - intros [HC HN]. destruct (char_cases m HC) as [(c & -> & HL)|[HH HE]].
    + constructor. apply negb_true_iff. apply Ascii.eqb_neq. congruence.
    + destruct m as [|c m]; [congruence|]. destruct HA as [HA _], HH as [HH _]. unfold high in HH. exfalso. lia.
Qed.
Lemma widened_mat r r' : widened r r' -> forall p m q, ascii_text m -> (mat r p m q <-> mat r' p m q).
Proof.
  induction 1 as [r| |a a' b b' HA IHA HB IHB|a a' b b' HA IHA HB IHB|a a' HA IHA]; intros p m q HM.
  - reflexivity.
  - apply rune_ascii. exact HM.
  - split; intro H; inversion H as [| |? ? ? x y ? H1 H2| | | | | |]; subst; apply ascii_app in HM; destruct HM; constructor; (apply IHA || apply IHB); auto.
  - split; intro H; inversion H; subst; first [apply mat_alt_l; apply IHA; solve [auto]|apply mat_alt_r; apply IHB; solve [auto]].
  - split; apply star_simulated; auto; intros; apply IHA; auto.
Qed.
Lemma widened_found r r' s : widened r r' -> ascii_text s -> (found r s <-> found r' s).
Proof.
  intros HW HS. unfold found. split; intros (p & m & q & -> & H); exists p, m, q; split; auto;
    apply ascii_app in HS; destruct HS as [_ HS]; apply ascii_app in HS; destruct HS as [HS _]; apply (widened_mat r r' HW p m q HS); exact H.
Qed.
Lemma widened_text t r : pattern_text t r -> exists r', pattern_text8 t r' /\ widened r r'.
Proof.
  assert (HA : forall t r, atom_text t r -> exists r', atom_text8 t r' /\ widened r r').
  { intros t0 r0 H. destruct H as [c HC| | c HC| | | |].
    - exists (lit c). split; [apply at8_plain; apply HC|apply w_same].
    - exists (lit "."). split; [apply at8_class_dot|apply w_same].
    - exists (lit c). split; [apply at8_escaped; exact HC|apply w_same].
    - exists any_rune. split; [apply at8_dot|apply w_any].
    - exists (RStar any_rune). split; [apply at8_dot_star|apply w_star, w_any].
    - exists RBegin. split; [apply at8_begin|apply w_same].
    - exists REnd. split; [apply at8_end|apply w_same]. }
  assert (HQ : forall t r, seq_text t r -> exists r', seq_text8 t r' /\ widened r r').
  { induction 1 as [|t1 r1 ts rs H1 H2 IH]; [exists REps; split; constructor|].
    destruct (HA _ _ H1) as (r1' & A1 & W1). destruct IH as (rs' & A2 & W2). exists (RSeq r1' rs'). split; constructor; auto. }
  assert (HL : forall t r, alt_text t r -> exists r', alt_text8 t r' /\ widened r r').
  { induction 1 as [t1 r1 H1|t1 r1 ts rs H1 H2 IH].
    - destruct (HQ _ _ H1) as (r1' & A1 & W1). exists r1'. split; auto. constructor; auto.
    - destruct (HQ _ _ H1) as (r1' & A1 & W1). destruct IH as (rs' & A2 & W2). exists (RAlt r1' rs'). split; [apply al8_more|apply w_alt]; auto. }
  intro H. destruct H as [t r H|t r H]; destruct (HL _ _ H) as (r' & A & W); exists r'; split; auto; [apply pt8_alt|apply pt8_group]; auto.
Qed.
Lemma pattern_ascii t r : pattern_text t r -> ascii_text t.
Proof.
  assert (HA : forall t r, atom_text t r -> ascii_text t).
  { intros t0 r0 H. destruct H as [c HC| | c HC| | | |]; cbn [ascii_text]; repeat split; try (cbn; lia).
    - apply HC.
    - simpl in HC. destruct HC as [<-|[<-|[<-|[]]]]; cbn; lia. }
  assert (HQ : forall t r, seq_text t r -> ascii_text t).
  { induction 1; [exact I|]. apply ascii_app. split; eauto. }
  assert (HL : forall t r, alt_text t r -> ascii_text t).
  { induction 1; eauto. apply ascii_app. split; eauto. apply ascii_app. split; auto. cbn. split; auto; lia. }
  intro H. destruct H as [t r H|t r H]; eauto. apply ascii_app. split; [cbn; split; auto; lia|]. apply ascii_app. split; eauto. cbn. split; auto; lia.
Qed.
Theorem utf8_regex_ascii L : Utf8RegexSpec L -> RegexSpec L.
Proof.
  intros H t r HT. destruct (widened_text t r HT) as (r' & HT' & HW). destruct (H t r' HT' (ascii_utf8 _ (pattern_ascii _ _ HT))) as (re & E & HM).
  exists re. split; auto. intros s HS. rewrite (HM s (ascii_utf8 _ HS)). symmetry. apply widened_found; auto.
Qed.

(** an ASCII pattern accepts the same ASCII texts under both readings *)
Lemma glob8_ascii p s : ascii_text s -> (glob8 p s <-> glob p s).
Proof.
  intro HS. split.
  - intro H. revert HS. induction H as [|p s1 s2 HU HN HR IH|ch p s HU HN HR IH|c p s N1 N2 HR IH]; intro HS.
    + constructor.
    + apply ascii_app in HS. destruct HS. constructor; auto.
    + apply ascii_app in HS. destruct HS as [HC HS]. destruct (char_cases ch HU) as [(c & -> & HL)|[HH HE]].
      * cbn. constructor; auto. congruence.
      * destruct ch as [|c ch]; [congruence|]. destruct HC as [HC _], HH as [HH _]. unfold high in HH. exfalso. lia.
    + destruct HS. constructor; auto.
  - intro H. revert HS. induction H as [|p s1 s2 HN HR IH|c p s HN HR IH|c p s N1 N2 HR IH]; intro HS.
    + constructor.
    + apply ascii_app in HS. destruct HS. constructor; auto. apply ascii_utf8; auto.
    + destruct HS as [HC HS]. change (String c s) with (String c "" ++ s). constructor; auto; [apply low_char; exact HC|congruence].
    + destruct HS. constructor; auto.
Qed.
