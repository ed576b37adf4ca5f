(** C39, C40: label texts and derived fields of messages. *)
From Coq Require Import List String Ascii Bool Arith ZArith Lia.
From Verif Require Import Base GoStr GoFloat Types Json Parse Eval Messages Spec_Tree Spec_Leaf Tree_laws Number_proofs Leaf_laws Attr_proofs Spec_Glob Spec_Names Spec_Messages Float_proofs Messages_proofs
  RefLib RefLib_facts RefLib_time Samples Props_Leaf.
Import ListNotations.
Open Scope string_scope.

(** ** C39 *)
(** [label], [labels_text], [labels_now], [item_char] (Spec_Messages) *)
Theorem C39_labels : forall L m ls, ls <> [] -> Forall (fun kv => label (fst kv) /\ label (snd kv)) ls ->
  (without_spaces (m_source_labels_json m) = labels_text ls -> labels_now ls (m_source_labels m) (m_source_labels (parse_labels L m))) /\
  (without_spaces (m_dest_labels_json m) = labels_text ls -> labels_now ls (m_dest_labels m) (m_dest_labels (parse_labels L m))).
Proof. intros L m ls HN HF. split; intro HS; exact (labels_read L ls _ _ HN HF HS). Qed.
Print Assumptions C39_labels.
(** any item without exactly one colon makes the whole text unusable *)
Theorem C39_unusable : forall L m items, Forall (all_chars item_char) items -> Exists (fun i => occurrences ":" i <> 1%nat) items ->
  (without_spaces (m_source_labels_json m) = in_braces items -> m_source_labels (parse_labels L m) = m_source_labels m) /\
  (without_spaces (m_dest_labels_json m) = in_braces items -> m_dest_labels (parse_labels L m) = m_dest_labels m).
Proof. intros L m items HF HE. split; intro HS; exact (bad_labels L items _ _ HF HE HS). Qed.
Print Assumptions C39_unusable.
(** a text without braces, colons and commas: null removes all labels, anything else changes nothing *)
Theorem C39_plain : forall L m t, label t ->
  (without_spaces (m_source_labels_json m) = t -> m_source_labels (parse_labels L m) = (if String.eqb t "null" then [] else m_source_labels m)) /\
  (without_spaces (m_dest_labels_json m) = t -> m_dest_labels (parse_labels L m) = (if String.eqb t "null" then [] else m_dest_labels m)).
Proof. intros L m t HT. split; intro HS; exact (plain_labels L t _ _ HT HS). Qed.
Print Assumptions C39_plain.
(** conditions on the labels of a message without previous labels *)
Theorem C39_condition : forall L p key method value ret c v k m ls b, label_key_ok key ->
  prepares L p (sender_label key) method value ret c -> replaced p method value v -> ~ starts "receiverLabel[" v -> method_is method k ->
  m_source_labels m = [] -> ls <> [] -> Forall (fun kv => label (fst kv) /\ label (snd kv)) ls -> without_spaces (m_source_labels_json m) = labels_text ls ->
  may_return L (NCond c) (parse_labels L m) b -> (b = true <-> exists t, last_value key ls t /\ label_holds L k v t).
Proof.
  intros L p key method value ret c v k m ls b HK HP HV HR HM H0 HN HF HS HB.
  rewrite (sender_label_condition L p key method value ret c v k (parse_labels L m) b HK HP HV HR HM HB).
  pose proof (proj1 (C39_labels L m ls HN HF) HS key) as HL. rewrite H0 in HL. split; intros (t & H1 & H2); exists t; split; auto.
  - apply HL in H1. destruct H1 as [|[_ H1]]; [auto|discriminate].
  - apply HL. auto.
Qed.
Print Assumptions C39_condition.

Definition with_labels (s : string) : message :=
  mkMessage "" "" "" "" "" "" "" "" "" "" 0 "" "" "" "" "" "" s "" "" "" None None None None None "" f_zero f_zero f_zero [] [] [] [].
Example C39_case :
  m_source_labels (parse_labels RefLib (with_labels "{app: web, tier:front , app:db}")) = [("app", "db"); ("tier", "front")] /\
  m_source_labels (parse_labels RefLib (with_labels "{app: web, url:http://x}")) = [] /\
  m_source_labels (parse_labels RefLib (with_labels "{}")) = [] /\
  without_spaces "{app: web, tier:front , app:db}" = labels_text [("app", "web"); ("tier", "front"); ("app", "db")].
Proof. vm_compute. repeat split. Qed.
Definition with_old_labels (s : string) : message :=
  mkMessage "" "" "" "" "" "" "" "" "" "" 0 "" "" "" "" "" "" s "" "" "" None None None None None "" f_zero f_zero f_zero [] [] [("app", "web")] [].
Example C39_plain_case :
  m_source_labels (parse_labels RefLib (with_old_labels " null")) = [] /\
  m_source_labels (parse_labels RefLib (with_old_labels "nothing")) = [("app", "web")] /\
  m_source_labels (parse_labels RefLib (with_old_labels "12")) = [("app", "web")].
Proof. vm_compute. repeat split. Qed.
(** quotes are not understood *)
Theorem C39_quoted_refuted : exists m, m_source_labels_json m = "{" ++ dqs ++ "app" ++ dqs ++ ":" ++ dqs ++ "web" ++ dqs ++ "}" /\
  forall k, assoc k (m_source_labels (parse_labels RefLib m)) = None.
Proof. exists (with_labels ("{" ++ dqs ++ "app" ++ dqs ++ ":" ++ dqs ++ "web" ++ dqs ++ "}")). split; [reflexivity|]. intro k. vm_compute. reflexivity. Qed.
Print Assumptions C39_quoted_refuted.

(** ** C40 *)
Theorem C40_context_type : forall m, context_type (m_protocol m) (m_context_type (add_resource_type m)).
Proof. exact resource_type. Qed.
Print Assumptions C40_context_type.
Theorem C40_context_type_unique : forall p t t', context_type p t -> context_type p t' -> t = t'.
Proof. exact context_type_fun. Qed.
Print Assumptions C40_context_type_unique.
Theorem C40_context_type_only : forall m, let m' := add_resource_type m in
  same_given m m' /\ same_times m m' /\ same_ips m m' /\ same_labels m m' /\ add_resource_type m' = m'.
Proof. intro m. destruct (resource_type_same m) as (H1 & H2 & H3 & H4). repeat split; auto; apply H1 || apply H2 || apply H3 || apply H4. Qed.
Print Assumptions C40_context_type_only.

(** [clock_reading], [TimeSpec], [within], [earlier] (Spec_Messages) *)
Theorem C40_time_error : forall L m, add_time_info L m = Err <-> parse_time L (m_time m) = None.
Proof. intros L m. pose proof (time_info L m) as H. destruct (add_time_info L m); [destruct H as (c & -> & _)| |destruct H]; split; auto; discriminate. Qed.
Print Assumptions C40_time_error.
Theorem C40_clock : forall L m m' h mi s ns, TimeSpec L -> add_time_info L m = Ok m' -> parse_time L (m_time m) = Some (h, mi, s, ns) ->
  within (m_t_sec m') (3600 * h + 60 * mi + s) /\ within (m_t_min m') (60 * h + mi) /\ within (m_t_hours m') h.
Proof.
  intros L m m' h mi s ns HT HA HP. pose proof (time_info L m) as H. rewrite HA in H. destruct H as (c & HP' & _ & _ & _ & _ & H). rewrite HP in HP'. inversion HP'; subst.
  cbv iota zeta in H. destruct H as (-> & -> & ->). exact (clock_within h mi s ns (HT _ _ HP)).
Qed.
Print Assumptions C40_clock.
Theorem C40_whole : forall L m m' h mi s, TimeSpec L -> add_time_info L m = Ok m' -> parse_time L (m_time m) = Some (h, mi, s, 0%Z) ->
  feqb (m_t_sec m') (f64_of_Z (3600 * h + 60 * mi + s)) = true /\
  (s = 0%Z -> feqb (m_t_min m') (f64_of_Z (60 * h + mi)) = true) /\ (s = 0%Z -> mi = 0%Z -> feqb (m_t_hours m') (f64_of_Z h) = true).
Proof.
  intros L m m' h mi s HT HA HP. pose proof (time_info L m) as H. rewrite HA in H. destruct H as (c & HP' & _ & _ & _ & _ & H). rewrite HP in HP'. inversion HP'; subst.
  cbv iota zeta in H. destruct H as (-> & -> & ->). exact (whole_clock h mi s (HT _ _ HP)).
Qed.
Print Assumptions C40_whole.
Theorem C40_order : forall L m1 m2 m1' m2' c1 c2, TimeSpec L -> add_time_info L m1 = Ok m1' -> add_time_info L m2 = Ok m2' ->
  parse_time L (m_time m1) = Some c1 -> parse_time L (m_time m2) = Some c2 -> earlier c1 c2 ->
  fleb (m_t_sec m1') (m_t_sec m2') = true /\ fleb (m_t_min m1') (m_t_min m2') = true /\ fleb (m_t_hours m1') (m_t_hours m2') = true.
Proof.
  intros L m1 m2 m1' m2' c1 c2 HT HA1 HA2 HP1 HP2 HE. pose proof (time_info L m1) as H1. rewrite HA1 in H1. destruct H1 as (x1 & E1 & _ & _ & _ & _ & H1).
  pose proof (time_info L m2) as H2. rewrite HA2 in H2. destruct H2 as (x2 & E2 & _ & _ & _ & _ & H2). rewrite HP1 in E1. rewrite HP2 in E2. inversion E1; inversion E2; subst.
  pose proof (HT _ _ HP1) as R1. pose proof (HT _ _ HP2) as R2. destruct x1 as [[[h mi] s] ns], x2 as [[[h' mi'] s'] ns']. cbv iota zeta in *.
  destruct H1 as (-> & -> & ->). destruct H2 as (-> & -> & ->). exact (proj2 (times_mono _ _ (earlier_nanoseconds _ _ _ _ _ _ _ _ R1 R2 HE))).
Qed.
Print Assumptions C40_order.
Theorem C40_time_only : forall L m m', add_time_info L m = Ok m' -> same_given m m' /\ same_context m m' /\ same_ips m m' /\ same_labels m m'.
Proof. intros L m m' H. pose proof (time_info L m) as HT. rewrite H in HT. destruct HT as (c & _ & H1 & H2 & H3 & H4 & _). auto. Qed.
Print Assumptions C40_time_only.
(** a condition on the hour with a whole number *)
Theorem C40_hour_condition : forall L p method value ret c v j m m' h mi s ns b, NumberSpec L -> TimeSpec L ->
  add_time_info L m = Ok m' -> parse_time L (m_time m) = Some (h, mi, s, ns) -> (0 <= j < 1000)%Z -> quantity L v (f64_of_Z j) ->
  prepares L p "utcHoursFromMidnight" method value ret c -> replaced p method value v -> may_return L (NCond c) m' b ->
  (method_is method KGe -> (b = true <-> (j <= h)%Z)) /\ (method_is method KLt -> (b = true <-> (h < j)%Z)).
Proof.
  intros L p method value ret c v j m m' h mi s ns b HN HT HA HP Hj HQ HC HV HB.
  destruct (C40_clock L m m' h mi s ns HT HA HP) as (_ & _ & HW). pose proof (HT _ _ HP) as HR.
  pose proof (time_info L m) as H. rewrite HA in H. destruct H as (c' & HP' & _ & _ & _ & _ & H). rewrite HP in HP'. inversion HP'; subst c'. destruct H as (_ & _ & HH).
  assert (HF : finite (m_t_hours m')) by (rewrite HH; apply hours_finite; auto).
  destruct (within_whole _ h j HF HW) as [G1 G2]; [destruct HR; lia|lia|].
  split; intro HM; rewrite (proj1 (hours_attribute L p method value ret c v _ m' HN HC HV HM) b HB).
  - split; [intros (x & Q & F); apply (quantity_fun L v _ _ Q) in HQ; subst; apply G1; exact F|intro; exists (f64_of_Z j); split; [auto|apply G1; auto]].
  - split; [intros (x & Q & F); apply (quantity_fun L v _ _ Q) in HQ; subst; apply G2; exact F|intro; exists (f64_of_Z j); split; [auto|apply G2; auto]].
Qed.
Print Assumptions C40_hour_condition.
(** The loader completes every message, or fails if one of the times cannot be read. *)
Theorem C40_load : forall L ms, match complete_messages L ms with
  | Ok ms' => Forall2 (completed L) ms ms' /\ Forall (fun m => parse_time L (m_time m) <> None) ms
  | Err => Exists (fun m => parse_time L (m_time m) = None) ms
  | Panic => False
  end.
Proof.
  intros L ms. pose proof (complete_all L ms) as H. destruct (complete_messages L ms); auto. split; auto.
  induction H; constructor; auto. eapply completed_time; eauto.
Qed.
Print Assumptions C40_load.

Definition at_time (t : string) : message :=
  mkMessage "10.1.2.3" "" "" "x" "" "" "" "" "" "" 0 t "" "TCP" "" "" "" "{a:b}" "" "topic" "" None None None None None "" f_zero f_zero f_zero [] [] [] [].
Definition hours_at (t : string) : option string :=
  match complete_messages RefLib [at_time t] with Ok [m] => Some (m_context_type m ++ " " ++ fmt_float RefLib (m_t_hours m)) | _ => None end.
Example C40_case : map hours_at ["2018-07-29T14:30:00Z"; "2018-07-29T23:59:59.999999999Z"; "2018-07-29T00:00:00Z"; "14:30"] =
  [Some "port 14.5"; Some "port 23.99999999999972"; Some "port 0"; None].
Proof. vm_compute. reflexivity. Qed.
(** conditions on a message that went through the loader *)
Definition asked (t text : string) : option bool :=
  match complete_messages RefLib [at_time t] with Ok [m] => run_flag in_order text m | _ => None end.
Definition asks_text (att method value : string) : string :=
  "{'attribute':'" ++ att ++ "','method':'" ++ method ++ "','value':'" ++ value ++ "'}".
Example C40_hour_case :
  asked "2018-07-29T14:30:00Z" (asks_text "utcHoursFromMidnight" "GE" "14") = Some true /\
  asked "2018-07-29T14:30:00Z" (asks_text "utcHoursFromMidnight" "GE" "15") = Some false /\
  asked "2018-07-29T14:30:00Z" (asks_text "utcHoursFromMidnight" "LT" "15") = Some true /\
  asked "2018-07-29T14:30:00Z" (asks_text "senderLabel[a]" "EQ" "b") = Some true /\
  asked "2018-07-29T14:30:00Z" (asks_text "senderLabel[a]" "EQ" "c") = Some false /\
  asked "2018-07-29T14:30:00Z" (asks_text "senderLabel[c]" "EQ" "b") = Some false.
Proof. vm_compute. repeat split. Qed.
Example C40_spec : TimeSpec RefLib.
Proof. exact ref_time. Qed.
(** the fields are named UTC, but the zone of the time is not taken into account *)
Theorem C40_utc_refuted : hours_at "2018-07-29T14:30:00-07:00" = hours_at "2018-07-29T14:30:00Z" /\
  hours_at "2018-07-29T14:30:00-07:00" <> hours_at "2018-07-29T21:30:00Z".
Proof. vm_compute. split; [reflexivity|discriminate]. Qed.
Print Assumptions C40_utc_refuted.
