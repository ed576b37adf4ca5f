(** Matching of the names, operation and resource of a prepared rule, in terms of the texts. *)
From Coq Require Import List String Ascii Bool Arith ZArith Lia.
From Verif Require Import Base GoStr GoStr_facts GoFloat Types Json StrUtils Validate Prepare Parse Marshal
  Lifecycle Eval Check Tree_proofs Tree_truth Spec_Decision Spec_Match Check_proofs Match_proofs
  Spec_Regex Spec_Glob Glob_proofs.
Import ListNotations.
Open Scope string_scope.

Section WithLib.
Variable L : Lib.

(** what preparation does to the fields of a rule other than its tree *)
Theorem prepared_fields p r r' : ru_converted r = false -> prepare_rule L p r = Ok r' ->
  replace_name p (ru_sender_name r) = Ok (ru_sender_name r') /\
  replace_name p (ru_receiver_name r) = Ok (ru_receiver_name r') /\
  ru_sender_type r' = ru_sender_type r /\ ru_receiver_type r' = ru_receiver_type r /\
  ru_protocol r' = ru_protocol r /\ ru_resource_type r' = ru_resource_type r /\
  ru_resource_name r' = ru_resource_name r /\ ru_operation r' = ru_operation r /\
  ru_decision r' = ru_decision r /\ ru_id r' = ru_id r /\ ru_metadata r' = ru_metadata r /\
  ru_hash r' = ru_hash r /\ ru_converted r' = true /\
  expand L (ru_sender_name r') (ru_sender_type r') = Ok (ru_sender_list r') /\
  expand L (ru_receiver_name r') (ru_receiver_type r') = Ok (ru_receiver_list r') /\
  (exists re, re_compile L (convert_operation (ru_operation r')) = Some re /\ ru_operation_regex r' = Some re) /\
  (exists re, re_compile L (convert_string_to_regex (ru_resource_name r') "WithWildcards") = Some re /\
     ru_resource_regex r' = Some re) /\
  match ru_tree r with
  | None => ru_tree r' = None
  | Some n => exists n', prepare_node L p n = Ok n' /\ ru_tree r' = Some n'
  end.
Proof.
  intros HV H. unfold prepare_rule in H. apply rbind_ok in H. destruct H as (r1 & H1 & H).
  apply rbind_ok in H. destruct H as (r2 & H2 & H3).
  unfold replace_in_rule in H2. apply rbind_ok in H2. destruct H2 as (sn & HS & H2).
  apply rbind_ok in H2. destruct H2 as (rn & HR & H2). injection H2; intros; subst. clear H2.
  unfold convert_fields in H3. simpl in H3.
  assert (ET : ru_converted r1 = false /\ ru_sender_name r1 = ru_sender_name r /\ ru_receiver_name r1 = ru_receiver_name r /\
    ru_sender_type r1 = ru_sender_type r /\ ru_receiver_type r1 = ru_receiver_type r /\
    ru_protocol r1 = ru_protocol r /\ ru_resource_type r1 = ru_resource_type r /\
    ru_resource_name r1 = ru_resource_name r /\ ru_operation r1 = ru_operation r /\
    ru_decision r1 = ru_decision r /\ ru_id r1 = ru_id r /\ ru_metadata r1 = ru_metadata r /\ ru_hash r1 = ru_hash r /\
    match ru_tree r with
    | None => ru_tree r1 = None
    | Some n => exists n', prepare_node L p n = Ok n' /\ ru_tree r1 = Some n'
    end).
  { destruct (ru_tree r) eqn:ET.
    - apply rbind_ok in H1. destruct H1 as (n' & Hn & H1). injection H1; intros; subst. simpl.
      repeat (split; [solve [auto]|]). exists n'. auto.
    - injection H1; intros; subst. repeat (split; [solve [auto]|]). auto. }
  destruct ET as (E0 & E1 & E2 & E3 & E4 & E5 & E6 & E7 & E8 & E9 & E10 & E11 & E12 & E13).
  rewrite E0 in H3. apply rbind_ok in H3. destruct H3 as (sl & HSL & H3). apply rbind_ok in H3. destruct H3 as (rl & HRL & H3).
  destruct (re_compile L (convert_operation _)) as [ore|] eqn:EO; [|discriminate].
  destruct (re_compile L (convert_string_to_regex (ru_resource_name r1) "WithWildcards")) as [rre|] eqn:ER; [|discriminate].
  injection H3; intros; subst; clear H3; simpl.
  rewrite E1 in HS. rewrite E2 in HR.
  repeat (split; [solve [eauto]|]). auto.
Qed.

Lemma rmapM_Forall2 {A B} (f : A -> res B) l bs : rmapM f l = Ok bs <-> Forall2 (fun a b => f a = Ok b) l bs.
Proof.
  split.
  - revert bs. induction l as [|a l IH]; simpl; intros bs H.
    + injection H; intros; subst; constructor.
    + apply rbind_ok in H. destruct H as (b & Hb & H). apply rbind_ok in H. destruct H as (bs' & Hbs & H).
      injection H; intros; subst. constructor; auto.
  - induction 1 as [|a b l bs H HF IH]; simpl; auto. rewrite H. simpl. rewrite IH. auto.
Qed.

Lemma Forall2_Exists {A B} (R : A -> B -> Prop) (P : A -> Prop) (Q : B -> Prop) l1 l2 :
  Forall2 R l1 l2 -> (forall a b, In a l1 -> R a b -> (P a <-> Q b)) -> (Exists P l1 <-> Exists Q l2).
Proof.
  induction 1 as [|a b l1 l2 H HF IH]; intro HPQ.
  - split; intro H; inversion H.
  - rewrite !Exists_cons, IH by (intros; apply HPQ; simpl; auto).
    rewrite (HPQ a b) by (simpl; auto). tauto.
Qed.

Hypothesis HRE : RegexSpec L.

Lemma expand_name_entry ty item x t : ty <> "subnet" -> pattern_ok item -> ascii_text t ->
  expand_one L ty item = Ok x -> x_type x = ty /\ (accepts L (x_regexp x) t <-> glob (without_spaces item) t).
Proof.
  intros NS HP HT. unfold expand_one. rewrite (proj2 (String.eqb_neq ty "subnet") NS). simpl.
  destruct (name_regex L HRE item HP) as (re & E & HM). simpl in E. rewrite E. intro H; injection H; intros; subst. simpl.
  split; auto. unfold accepts. rewrite <- (HM t HT). split; [intros (r' & E' & H')|]; eauto. congruence.
Qed.

Lemma name_accepts_iff pat t : name_accepts pat t <-> Exists (fun item => glob (without_spaces item) t) (split_char "," pat).
Proof.
  unfold name_accepts. rewrite Exists_exists. split.
  - intros (items & item & HI & HN & HG). apply comma_items_iff in HI. subst. eauto.
  - intros (x & HI & HG). exists (split_char "," pat), x. repeat split; auto; apply split_items.
Qed.

(** C07: names *)
Theorem sender_names p r r' m : ru_converted r = false -> prepare_rule L p r = Ok r' ->
  In (ru_sender_type r) ["*"; "workload"] -> pattern_ok (ru_sender_name r') -> ascii_text (m_source_service m) ->
  (sender_matches L r' m <-> name_accepts (ru_sender_name r') (m_source_service m)).
Proof.
  intros HV H HT HP HA. apply prepared_fields in H; auto.
  destruct H as (_ & _ & E1 & _ & _ & _ & _ & _ & _ & _ & _ & _ & _ & H & _).
  unfold expand in H. apply rmapM_Forall2 in H. rewrite name_accepts_iff. unfold sender_matches. symmetry.
  assert (NS : ru_sender_type r' <> "subnet") by (rewrite E1; intro E0; rewrite E0 in HT; simpl in HT; intuition discriminate).
  eapply Forall2_Exists; [exact H|]. intros item x HI HX. simpl in HX.
  assert (HPI : pattern_ok item) by exact (proj1 (Forall_forall _ _) (split_pattern_ok _ _ HP) item HI).
  destruct (expand_name_entry _ _ _ _ NS HPI HA HX) as [ET HM]. rewrite <- HM. unfold sender_entry. rewrite ET.
  rewrite E1 in *. simpl in HT. intuition congruence.
Qed.

Theorem receiver_names p r r' m : ru_converted r = false -> prepare_rule L p r = Ok r' ->
  In (ru_receiver_type r) ["*"; "workload"] -> pattern_ok (ru_receiver_name r') -> ascii_text (m_dest_service m) ->
  (receiver_matches L r' m <-> name_accepts (ru_receiver_name r') (m_dest_service m)).
Proof.
  intros HV H HT HP HA. apply prepared_fields in H; auto.
  destruct H as (_ & _ & _ & E1 & _ & _ & _ & _ & _ & _ & _ & _ & _ & _ & H & _).
  unfold expand in H. apply rmapM_Forall2 in H. rewrite name_accepts_iff. unfold receiver_matches. symmetry.
  assert (NS : ru_receiver_type r' <> "subnet") by (rewrite E1; intro E0; rewrite E0 in HT; simpl in HT; intuition discriminate).
  eapply Forall2_Exists; [exact H|]. intros item x HI HX. simpl in HX.
  assert (HPI : pattern_ok item) by exact (proj1 (Forall_forall _ _) (split_pattern_ok _ _ HP) item HI).
  destruct (expand_name_entry _ _ _ _ NS HPI HA HX) as [ET HM]. rewrite <- HM. unfold receiver_entry. rewrite ET.
  assert (NH : ru_receiver_type r <> "hostname") by (simpl in HT; intros E; rewrite E in HT; intuition discriminate).
  rewrite E1 in *. simpl in HT. intuition congruence.
Qed.

Theorem receiver_hosts p r r' m : ru_converted r = false -> prepare_rule L p r = Ok r' ->
  ru_receiver_type r = "hostname" -> pattern_ok (ru_receiver_name r') -> ascii_text (m_host m) ->
  (receiver_matches L r' m <-> name_accepts (ru_receiver_name r') (m_host m)).
Proof.
  intros HV H HT HP HA. apply prepared_fields in H; auto.
  destruct H as (_ & _ & _ & E1 & _ & _ & _ & _ & _ & _ & _ & _ & _ & _ & H & _).
  unfold expand in H. apply rmapM_Forall2 in H. rewrite name_accepts_iff. unfold receiver_matches. symmetry.
  assert (NS : ru_receiver_type r' <> "subnet") by (rewrite E1, HT; discriminate).
  eapply Forall2_Exists; [exact H|]. intros item x HI HX. simpl in HX.
  assert (HPI : pattern_ok item) by exact (proj1 (Forall_forall _ _) (split_pattern_ok _ _ HP) item HI).
  destruct (expand_name_entry _ _ _ _ NS HPI HA HX) as [ET HM]. rewrite <- HM. unfold receiver_entry. rewrite ET.
  rewrite E1, HT in *. intuition discriminate.
Qed.

End WithLib.

Section Other.
Variable L : Lib.

(** other types never match *)
Theorem sender_other_type p r r' m : ru_converted r = false -> prepare_rule L p r = Ok r' ->
  ~ In (ru_sender_type r) ["*"; "workload"; "subnet"] -> ~ sender_matches L r' m.
Proof.
  intros HV H HT. apply prepared_fields in H; auto.
  destruct H as (_ & _ & E1 & _ & _ & _ & _ & _ & _ & _ & _ & _ & _ & H & _).
  unfold expand in H. apply rmapM_Forall2 in H.
  intro HM. unfold sender_matches in HM. apply Exists_exists in HM. destruct HM as (x & HI & HX).
  assert (ET : x_type x = ru_sender_type r).
  { rewrite <- E1. clear - H HI. induction H as [|a b l1 l2 H HF IH]; [destruct HI|]. destruct HI as [->|HI]; auto.
    unfold expand_one in H. destruct (if String.eqb (ru_sender_type r') "subnet" then _ else _) as [[[? ?] ?] ?].
    destruct (_ && _ && _)%bool; [discriminate|]. destruct (re_compile L _); [|discriminate].
    injection H; intros; subst; auto. }
  apply HT. destruct HX as [[E _]|[[E|E] _]]; rewrite ET in E; rewrite E; simpl; auto.
Qed.

Theorem receiver_other_type p r r' m : ru_converted r = false -> prepare_rule L p r = Ok r' ->
  ~ In (ru_receiver_type r) ["*"; "workload"; "subnet"; "hostname"] -> ~ receiver_matches L r' m.
Proof.
  intros HV H HT. apply prepared_fields in H; auto.
  destruct H as (_ & _ & _ & E1 & _ & _ & _ & _ & _ & _ & _ & _ & _ & _ & H & _).
  unfold expand in H. apply rmapM_Forall2 in H.
  intro HM. unfold receiver_matches in HM. apply Exists_exists in HM. destruct HM as (x & HI & HX).
  assert (ET : x_type x = ru_receiver_type r).
  { rewrite <- E1. clear - H HI. induction H as [|a b l1 l2 H HF IH]; [destruct HI|]. destruct HI as [->|HI]; auto.
    unfold expand_one in H. destruct (if String.eqb (ru_receiver_type r') "subnet" then _ else _) as [[[? ?] ?] ?].
    destruct (_ && _ && _)%bool; [discriminate|]. destruct (re_compile L _); [|discriminate].
    injection H; intros; subst; auto. }
  apply HT. destruct HX as [[E _]|[[E _]|[[E|E] _]]]; rewrite ET in E; rewrite E; simpl; auto.
Qed.

(** C08: subnets *)

Hypothesis HC : CidrSpec L.

Lemma expand_subnet_entry item x address addr : expand_one L "subnet" item = Ok x ->
  x_type x = "subnet" /\ (subnet_entry L x address addr <-> subnet_item L item address addr).
Proof.
  unfold expand_one. simpl. unfold subnet_item, subnet_text, is_ip_cidr.
  destruct (parse_cidr L (if String.eqb item "*" then "0.0.0.0/0" else item)) as [n|] eqn:EC; simpl.
  - destruct (re_compile L _); [|discriminate]. intro H; injection H; intros; subst. simpl. split; auto.
    unfold subnet_entry; simpl. split.
    + intros [[_ H1]|[E _]]; [left; eauto|discriminate].
    + intros [(n' & E & H1)|[E _]]; [left; split; congruence|discriminate].
  - destruct (parse_ip L _) as [i|] eqn:EI; simpl; [|discriminate].
    destruct (re_compile L _); [|discriminate]. intro H; injection H; intros; subst. simpl. split; auto.
    unfold subnet_entry; simpl. split.
    + intros [[E _]|(_ & _ & E)]; [discriminate|]. right. repeat split; auto. discriminate.
    + intros [(n' & E & _)|(_ & _ & E)]; [discriminate|]. right. auto.
Qed.

Theorem sender_subnets p r r' m : ru_converted r = false -> prepare_rule L p r = Ok r' ->
  ru_sender_type r = "subnet" ->
  (sender_matches L r' m <->
   exists items, comma_items (ru_sender_name r') items /\
     Exists (fun item => subnet_item L item (m_source_ip m) (m_source_netip m)) items).
Proof.
  intros HV H HT. apply prepared_fields in H; auto.
  destruct H as (_ & _ & E1 & _ & _ & _ & _ & _ & _ & _ & _ & _ & _ & H & _).
  unfold expand in H. apply rmapM_Forall2 in H. unfold sender_matches. rewrite E1, HT in H.
  transitivity (Exists (fun item => subnet_item L item (m_source_ip m) (m_source_netip m)) (split_char "," (ru_sender_name r'))).
  - symmetry. eapply Forall2_Exists; [exact H|]. intros item x HI HX. simpl in HX.
    destruct (expand_subnet_entry item x (m_source_ip m) (m_source_netip m) HX) as [ET HM]. rewrite <- HM.
    unfold sender_entry. rewrite ET. intuition congruence.
  - split; [intro HE; exists (split_char "," (ru_sender_name r')); split; auto; apply split_items|].
    intros (items & HI & HE). apply comma_items_iff in HI. subst; auto.
Qed.

Theorem receiver_subnets p r r' m : ru_converted r = false -> prepare_rule L p r = Ok r' ->
  ru_receiver_type r = "subnet" ->
  (receiver_matches L r' m <->
   exists items, comma_items (ru_receiver_name r') items /\
     Exists (fun item => subnet_item L item (m_dest_ip m) (m_dest_netip m)) items).
Proof.
  intros HV H HT. apply prepared_fields in H; auto.
  destruct H as (_ & _ & _ & E1 & _ & _ & _ & _ & _ & _ & _ & _ & _ & _ & H & _).
  unfold expand in H. apply rmapM_Forall2 in H. unfold receiver_matches. rewrite E1, HT in H.
  transitivity (Exists (fun item => subnet_item L item (m_dest_ip m) (m_dest_netip m)) (split_char "," (ru_receiver_name r'))).
  - symmetry. eapply Forall2_Exists; [exact H|]. intros item x HI HX. simpl in HX.
    destruct (expand_subnet_entry item x (m_dest_ip m) (m_dest_netip m) HX) as [ET HM]. rewrite <- HM.
    unfold receiver_entry. rewrite ET. intuition congruence.
  - split; [intro HE; exists (split_char "," (ru_receiver_name r')); split; auto; apply split_items|].
    intros (items & HI & HE). apply comma_items_iff in HI. subst; auto.
Qed.

(** preparation fails when an item is neither an address nor a network *)

Lemma expand_subnet_ok item x : expand_one L "subnet" item = Ok x -> address_or_network L item.
Proof.
  unfold expand_one, address_or_network, subnet_text, is_ip_cidr. simpl.
  destruct (parse_cidr L _); [left; discriminate|]. destruct (parse_ip L _); [right; discriminate|]. discriminate.
Qed.

Theorem subnet_items_valid p r r' : ru_converted r = false -> prepare_rule L p r = Ok r' ->
  (ru_sender_type r = "subnet" -> forall items, comma_items (ru_sender_name r') items -> Forall (address_or_network L) items) /\
  (ru_receiver_type r = "subnet" -> forall items, comma_items (ru_receiver_name r') items -> Forall (address_or_network L) items).
Proof.
  intros HV H. apply prepared_fields in H; auto.
  destruct H as (_ & _ & E1 & E2 & _ & _ & _ & _ & _ & _ & _ & _ & _ & HS & HR & _).
  assert (HG : forall name, forall xs, expand L name "subnet" = Ok xs -> forall items, comma_items name items -> Forall (address_or_network L) items).
  { intros name xs HX items HI. apply comma_items_iff in HI. subst. unfold expand in HX. apply rmapM_Forall2 in HX.
    induction HX; constructor; auto. eapply expand_subnet_ok; eauto. }
  split; intro HT; [rewrite E1, HT in HS|rewrite E2, HT in HR]; eauto.
Qed.

Hypothesis HRE : RegexSpec L.

Lemma accepts_some re t : accepts L (Some re) t <-> re_match L re t = true.
Proof. unfold accepts. split; [intros (r' & E & H); congruence|eauto]. Qed.

(** C09: operations *)
Theorem operation_texts p r r' m : ru_converted r = false -> prepare_rule L p r = Ok r' ->
  pattern_ok (ru_operation r) -> ascii_text (m_method m) ->
  (operation_matches L r' m <-> operation_accepts (ru_operation r) (m_method m)).
Proof.
  intros HV H HP HA. apply prepared_fields in H; auto.
  destruct H as (_ & _ & _ & _ & _ & _ & _ & EO & _ & _ & _ & _ & _ & _ & _ & (re & E & ER) & _).
  rewrite EO in E. destruct (operation_regex L HRE _ HP) as (re' & E' & HM).
  unfold operation_matches. rewrite ER, accepts_some. assert (re = re') by congruence. subst. apply HM; auto.
Qed.

(** C10: resources *)
Theorem resource_texts p r r' m : ru_converted r = false -> prepare_rule L p r = Ok r' ->
  pattern_ok (ru_resource_name r) -> ascii_text (m_path m) -> ascii_text (m_dest_port m) ->
  (resource_matches L r' m <->
     (ru_protocol r = "tcp" /\ list_accepts (ru_resource_name r) (m_dest_port m))
     \/ ru_protocol r = "*"
     \/ (ru_protocol r <> "tcp" /\ ru_protocol r <> "*" /\
         same_folded (m_protocol m) (ru_protocol r) /\
         (ru_resource_type r = "*" \/ m_context_type m = ru_resource_type r) /\
         list_accepts (ru_resource_name r) (m_path m))).
Proof.
  intros HV H HP HA1 HA2. apply prepared_fields in H; auto.
  destruct H as (_ & _ & _ & _ & EP & ET & EN & _ & _ & _ & _ & _ & _ & _ & _ & _ & (re & E & ER) & _).
  rewrite EN in E. destruct (wildcards_regex L HRE _ HP) as (re' & E' & HM).
  assert (re = re') by congruence. subst.
  unfold resource_matches. rewrite ER, EP, ET, !accepts_some, !HM by auto. reflexivity.
Qed.

(** loading succeeds for patterns of the glob language *)
Theorem names_prepare ty name : ty <> "subnet" -> pattern_ok name -> exists xs, expand L name ty = Ok xs.
Proof.
  intros NS HP. unfold expand. apply split_pattern_ok in HP. induction HP as [|item l HI HL IH].
  - exists []; auto.
  - destruct IH as [xs IH]. cbn [rmapM]. rewrite IH. unfold expand_one.
    rewrite (proj2 (String.eqb_neq ty "subnet") NS). simpl.
    destruct (name_regex L HRE item HI) as (re & E & _). simpl in E. rewrite E. simpl. eauto.
Qed.

End Other.
