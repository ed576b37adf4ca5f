(** The text of a rule is read back as the copy of the rule. *)
From Coq Require Import List String Ascii Bool Arith ZArith Lia.
From Verif Require Import Base GoStr GoFloat Types Json StrUtils GoStr_facts Validate Prepare Parse Marshal Lifecycle JsonDoc Spec_Tree Tree_proofs Spec_Glob Spec_Json Json_proofs Spec_Load Lifecycle_proofs Load_proofs
  Print_proofs Spec_Copy Copy_proofs Compact_proofs.
From Verif Require Import Spec_JsonDoc JsonDoc_proofs JsonDoc_structs Spec_JsonCopy JsonCopy_proofs.
Import ListNotations.
Open Scope string_scope.
Local Ltac plain_key := repeat split; try discriminate; vm_compute; lia.

(** every text of a value is that of a document *)
Lemma text_spelled L :
  (forall v s, text L v s -> exists j, spelled j s) /\
  (forall vs s, elements L vs s -> exists js, items js s) /\
  (forall kvs s, members L kvs s -> exists m, entries m s).
Proof.
  apply json_mind.
  - eexists. constructor.
  - eexists. constructor.
  - eexists. constructor.
  - intros x s H. eexists. apply sp_string. eauto.
  - intros s f HN _. eexists. apply sp_number. auto.
  - intros w HW. eexists. apply sp_empty_array. auto.
  - intros vs s _ [js H]. eexists. apply sp_array. eauto.
  - intros w HW. eexists. apply sp_empty_object. auto.
  - intros kvs s _ [m H]. eexists. apply sp_object. eauto.
  - intros v s w1 w2 H1 H2 _ [j H]. eexists. apply it_one; eauto.
  - intros v s w1 w2 vs z H1 H2 _ [j H] _ [js HE]. eexists. apply it_cons; eauto.
  - intros k ks v s w1 w2 w3 w4 H1 H2 H3 H4 HK _ [j H]. eexists. apply en_one; eauto.
  - intros k ks v s w1 w2 w3 w4 kvs z H1 H2 H3 H4 HK _ [j H] _ [m HM]. eexists. apply en_cons; eauto.
Qed.

(** ** Objects, entry by entry *)
Definition entry_text (e : string * json) (f : string) : Prop := exists ks s, f = quoted ks ++ ":" ++ s /\ chars (fst e) ks /\ spelled (snd e) s.
Definition writes (m : list (string * json)) (fs : list string) : Prop := Forall2 entry_text m fs.
Lemma writes_app m1 m2 f1 f2 : writes m1 f1 -> writes m2 f2 -> writes (m1 ++ m2)%list (f1 ++ f2)%list.
Proof. apply Forall2_app. Qed.
Lemma writes_entries m fs : fs <> [] -> writes m fs -> entries m (join "," fs).
Proof.
  intros HN H. induction H as [|[k j] f m fs (ks & s & -> & HK & HS) HF IH]; [congruence|]. cbn [fst snd] in *. unfold quoted. destruct HF as [|e2 f2 m fs H2 HF].
  - pose proof (en_one k ks j s "" "" "" "" I I I I HK HS) as H. cbn [join]. rewrite !append_assoc in *. cbn [append] in *. rewrite append_nil_r in H. exact H.
  - rewrite join_cons. pose proof (en_cons k ks j s "" "" "" "" _ _ I I I I HK HS (IH ltac:(discriminate))) as H. rewrite !append_assoc in *. exact H.
Qed.
Lemma writes_object m fs : writes m fs -> spelled (JObj (out_object fs) m) (out_object fs).
Proof.
  intro H. unfold out_object. destruct fs as [|f fs].
  - inversion H; subst. apply (sp_empty_object ""). exact I.
  - apply sp_object, writes_entries; [discriminate|auto].
Qed.
Lemma writes_field k j s : unescaped k -> spelled j s -> writes [(k, j)] (out_field k s).
Proof. intros HK HS. constructor; [|constructor]. exists k, s. split; [reflexivity|]. split; [apply unescaped_chars; auto|auto]. Qed.
Lemma string_spelled x : spelled (JStr (json_string x) x) (json_string x).
Proof. apply sp_string, escape_chars. Qed.

Section Chunks.
Context {A : Type}.
Variable fields : list (string * (json -> A -> P (A * bool))).
(** after the entries [m], the value [a] has become [a'] *)
Definition chunk (m : list (string * json)) (a a' : A) : Prop := forall m2 t, jd_members fields (m ++ m2)%list a t = jd_members fields m2 a' t.
Lemma chunk_nil a : chunk [] a a.
Proof. intros m2 t. reflexivity. Qed.
Lemma chunk_app m1 m2 a a1 a2 : chunk m1 a a1 -> chunk m2 a1 a2 -> chunk (m1 ++ m2)%list a a2.
Proof. intros H1 H2 m t. rewrite <- app_assoc, H1. apply H2. Qed.
Lemma chunk_one k j f a a' : jd_field fields k = Some f -> (forall t, f j a t = (Ok (a', false), t)) -> chunk [(k, j)] a a'.
Proof.
  intros E H m2 t. cbn [app jd_members]. rewrite E. unfold pbind at 1. rewrite H. unfold pbind, pret. destruct (jd_members fields m2 a' t) as [[[a2 bad]| |] t']; reflexivity.
Qed.
Lemma chunk_struct m a a' raw : chunk m a a' -> forall t, jd_struct fields (JObj raw m) a t = (Ok (a', false), t).
Proof. intros H t. cbn [jd_struct]. rewrite <- (app_nil_r m), H. reflexivity. Qed.
(** a field that is written when it is not empty *)
Lemma text_chunk k get set x a : jd_field fields k = Some (jd_part get set (jd_lift jd_string)) -> unescaped k -> (x = "" -> set a x = a) ->
  exists m, writes m (out_text k x) /\ chunk m a (set a x).
Proof.
  intros E HK HX. unfold out_text. destruct (String.eqb x "") eqn:EX.
  - apply String.eqb_eq in EX. exists []. split; [constructor|]. rewrite (HX EX). apply chunk_nil.
  - exists [(k, JStr (json_string x) x)]. split; [apply writes_field; auto; apply string_spelled|]. eapply chunk_one; [exact E|]. intro t. reflexivity.
Qed.
Lemma object_chunk {B} k get set (sub : list (string * (json -> B -> P (B * bool)))) m fs b a : jd_field fields k = Some (jd_part get set (jd_struct sub)) -> unescaped k -> writes m fs ->
  (forall m2 t, jd_members sub (m ++ m2)%list (get a) t = jd_members sub m2 b t) -> exists m', writes m' (out_field k (out_object fs)) /\ chunk m' a (set a b).
Proof.
  intros E HK HW HC. exists [(k, JObj (out_object fs) m)]. split; [apply writes_field; auto; apply writes_object; auto|]. eapply chunk_one; [exact E|]. intro t. unfold jd_part, pbind. cbn [jd_struct].
  rewrite <- (app_nil_r m), HC. reflexivity.
Qed.
End Chunks.

Section WithLib.
Variable L : Lib.
Variable ord : order.
Variable re_text : option (string -> option (RE L)).
Variable exp_in : json -> P (expanded L * bool).
Variable exps_out : list (expanded L) -> string.
Variable re_out : RE L -> string.

Lemma regex_chunk {A} fields k get set r (a : A) : jd_field fields k = Some (jd_part get set (jd_regex L re_text)) -> unescaped k -> get a = None -> (regex_json L r = None -> set a None = a) ->
  regex_returns L re_text re_out r -> exists m, writes m (out_regex L re_out k r) /\ chunk fields m a (set a (regex_json L r)).
Proof.
  intros E HK HG HX HR. destruct r as [x|]; cbn [out_regex regex_json].
  - destruct (HR x eq_refl) as (j & HS & HJ). exists [(k, j)]. split; [apply writes_field; auto|]. eapply chunk_one; [exact E|]. intro t. unfold jd_part, pbind. rewrite HG, HJ. reflexivity.
  - exists []. split; [constructor|]. rewrite (HX eq_refl). apply chunk_nil.
Qed.
Lemma list_chunk {A} fields get set l (a : A) : jd_field fields "-" = Some (jd_part get set (jd_slice exp_in)) -> (set a [] = a) ->
  list_returns L exp_in exps_out l -> exists m, writes m (out_list L exps_out l) /\ chunk fields m a (set a (map (expanded_json L) l)).
Proof.
  intros E HX HR. destruct l as [|x l]; cbn [out_list map].
  - exists []. split; [constructor|]. rewrite HX. apply chunk_nil.
  - destruct (HR ltac:(discriminate)) as (raw & js & HS & HJ). exists [("-", JArr raw js)]. split; [apply writes_field; [plain_key|auto]|]. eapply chunk_one; [exact E|]. intro t.
    unfold jd_part, pbind. cbn [jd_slice]. rewrite HJ. reflexivity.
Qed.
Lemma side_chunk nk tk name typ l : (nk, tk) = ("senderName", "senderType") \/ (nk, tk) = ("receiverName", "receiverType") -> list_returns L exp_in exps_out l ->
  exists m fs, out_side L exps_out nk tk name typ l = out_object fs /\ writes m fs /\ chunk (jside_fields L exp_in nk tk) m ("", "", []) (name, typ, map (expanded_json L) l).
Proof.
  intros HK HL. unfold out_side.
  assert (H1 : exists m, writes m (out_text nk name) /\ chunk (jside_fields L exp_in nk tk) m ("", "", []) (name, "", [])).
  { destruct HK as [E|E]; injection E as -> ->; (eapply (text_chunk _ _ (fun s => fst (fst s)) (fun s x => (x, snd (fst s), snd s)) name ("", "", [])); [reflexivity|plain_key|intros ->; reflexivity]). }
  assert (H2 : exists m, writes m (out_text tk typ) /\ chunk (jside_fields L exp_in nk tk) m (name, "", []) (name, typ, [])).
  { destruct HK as [E|E]; injection E as -> ->; (eapply (text_chunk _ _ (fun s => snd (fst s)) (fun s x => (fst (fst s), x, snd s)) typ (name, "", [])); [reflexivity|plain_key|intros ->; reflexivity]). }
  assert (H3 : exists m, writes m (out_list L exps_out l) /\ chunk (jside_fields L exp_in nk tk) m (name, typ, []) (name, typ, map (expanded_json L) l)).
  { destruct HK as [E|E]; injection E as -> ->; (eapply (list_chunk _ snd (fun s x => (fst (fst s), snd (fst s), x)) l (name, typ, [])); [reflexivity|reflexivity|auto]). }
  destruct H1 as (m1 & W1 & C1), H2 as (m2 & W2 & C2), H3 as (m3 & W3 & C3). exists (m1 ++ m2 ++ m3)%list. eexists. split; [reflexivity|]. split; [repeat apply writes_app; auto|].
  eapply chunk_app; [exact C1|]. eapply chunk_app; eauto.
Qed.
Lemma resource_chunk r : regex_returns L re_text re_out (ru_resource_regex r) ->
  exists m, writes m (out_text "resourceType" (ru_resource_type r) ++ out_text "resourceName" (ru_resource_name r) ++ out_regex L re_out "-" (ru_resource_regex r))%list /\
  chunk (jresource_fields L re_text) m ("", "", None) (ru_resource_type r, ru_resource_name r, regex_json L (ru_resource_regex r)).
Proof.
  intro HR.
  destruct (text_chunk (jresource_fields L re_text) "resourceType" (fun s => fst (fst s)) (fun s x => (x, snd (fst s), snd s)) (ru_resource_type r) ("", "", None)) as (m1 & W1 & C1); [reflexivity|plain_key|intros ->; reflexivity|].
  destruct (text_chunk (jresource_fields L re_text) "resourceName" (fun s => snd (fst s)) (fun s x => (fst (fst s), x, snd s)) (ru_resource_name r) (ru_resource_type r, "", None)) as (m2 & W2 & C2); [reflexivity|plain_key|intros ->; reflexivity|].
  destruct (regex_chunk (jresource_fields L re_text) "-" snd (fun s x => (fst (fst s), snd (fst s), x)) (ru_resource_regex r) (ru_resource_type r, ru_resource_name r, None)) as (m3 & W3 & C3); [reflexivity|plain_key|reflexivity|reflexivity|auto|].
  exists (m1 ++ m2 ++ m3)%list. split; [repeat apply writes_app; auto|]. eapply chunk_app; [exact C1|]. eapply chunk_app; eauto.
Qed.

Lemma map_written m : sorted_keys m -> exists fs es, string_map_json L m = out_object fs /\ writes es fs /\ jd_map (JObj (out_object fs) es) [] = (m, false).
Proof.
  intro HS. exists (map (fun kv => json_string (fst kv) ++ ":" ++ json_string (snd kv)) m), (map (fun kv => (fst kv, JStr (json_string (snd kv)) (snd kv))) m). split; [|split].
  - unfold string_map_json.
    assert (E : all_some (map (fun kv => option_map (pair (fst kv)) (json_marshal L (snd kv))) (map (fun kv => (fst kv, GStr (snd kv))) m)) =
      Some (map (fun kv => (fst kv, json_string (snd kv))) m)).
    { clear HS. induction m as [|kv m IH]; [auto|]. simpl. rewrite IH. auto. }
    cbn [json_marshal]. rewrite E. cbn [option_map].
    assert (HS2 : sorted_keys (map (fun kv => (fst kv, json_string (snd kv))) m)).
    { clear E. induction m as [|a [|b m] IH]; simpl; [constructor|constructor|]. inversion HS; subst. constructor; auto. }
    rewrite (sorted_sort _ HS2), map_map. unfold out_object. reflexivity.
  - clear HS. induction m as [|kv m IH]; cbn [map]; constructor; auto. exists (json_escape (fst kv)), (json_string (snd kv)). split; [reflexivity|]. split; [apply escape_chars|apply string_spelled].
  - cbn [jd_map]. apply entries_exact.
    + cbn [keys map app]. unfold keys. rewrite map_map. cbn [fst]. apply (sorted_distinct m). auto.
    + exists m. split; [reflexivity|]. clear HS. induction m as [|kv m IH]; cbn [map]; constructor; auto. split; [reflexivity|constructor].
Qed.
Notation fields := (jrule_fields L ord re_text exp_in).
Lemma before_tree r : list_returns L exp_in exps_out (ru_sender_list r) -> list_returns L exp_in exps_out (ru_receiver_list r) -> regex_returns L re_text re_out (ru_resource_regex r) ->
  exists m, writes m (out_text "ruleID" (ru_id r) ++
    out_field "sender" (out_side L exps_out "senderName" "senderType" (ru_sender_name r) (ru_sender_type r) (ru_sender_list r)) ++
    out_field "receiver" (out_side L exps_out "receiverName" "receiverType" (ru_receiver_name r) (ru_receiver_type r) (ru_receiver_list r)) ++
    out_text "protocol" (ru_protocol r) ++
    out_field "resource" (out_object (out_text "resourceType" (ru_resource_type r) ++ out_text "resourceName" (ru_resource_name r) ++ out_regex L re_out "-" (ru_resource_regex r))) ++
    out_text "operation" (ru_operation r))%list /\
  chunk fields m (empty_rule L) (mkRule (ru_id r) (ru_sender_name r) (ru_sender_type r) (map (expanded_json L) (ru_sender_list r))
              (ru_receiver_name r) (ru_receiver_type r) (map (expanded_json L) (ru_receiver_list r))
              (ru_protocol r) (ru_resource_type r) (ru_resource_name r) (regex_json L (ru_resource_regex r))
              (ru_operation r) None "" [] "" None false).
Proof.
  intros HL1 HL2 HR. destruct r as [id sn st sl rn rt rl pr ty na re op tree de me ha ore co]. cbn [ru_id ru_sender_name ru_sender_type ru_sender_list ru_receiver_name ru_receiver_type ru_receiver_list ru_protocol ru_resource_type ru_resource_name ru_resource_regex ru_operation] in *.
  destruct (side_chunk "senderName" "senderType" sn st sl (or_introl eq_refl) HL1) as (ms & fs & ES & WS & CS).
  destruct (side_chunk "receiverName" "receiverType" rn rt rl (or_intror eq_refl) HL2) as (mr & fr & ER & WR & CR). rewrite ES, ER.
  destruct (resource_chunk (mkRule id sn st sl rn rt rl pr ty na re op tree de me ha ore co) HR) as (mo & WO & CO). cbn [ru_resource_type ru_resource_name ru_resource_regex] in *.
  pose (at_ := fun id sn st sl rn rt rl pr ty na re op => mkRule (L := L) id sn st sl rn rt rl pr ty na re op None "" [] "" None false).
  edestruct (text_chunk fields "ruleID") with (x := id) (a := at_ "" "" "" [] "" "" [] "" "" "" None "") as (m1 & W1 & C1); [reflexivity|plain_key|intros ->; reflexivity|].
  change (chunk fields m1 (empty_rule L) (at_ id "" "" [] "" "" [] "" "" "" None "")) in C1.
  edestruct (@object_chunk (rule L) fields (jside L) "sender") with (a := at_ id "" "" [] "" "" [] "" "" "" None "") (b := (sn, st, map (expanded_json L) sl)) (m := ms) as (m2 & W2 & C2); [reflexivity|plain_key|exact WS|exact CS|].
  change (chunk fields m2 (at_ id "" "" [] "" "" [] "" "" "" None "") (at_ id sn st (map (expanded_json L) sl) "" "" [] "" "" "" None "")) in C2.
  edestruct (@object_chunk (rule L) fields (jside L) "receiver") with (a := at_ id sn st (map (expanded_json L) sl) "" "" [] "" "" "" None "") (b := (rn, rt, map (expanded_json L) rl)) (m := mr) as (m3 & W3 & C3); [reflexivity|plain_key|exact WR|exact CR|].
  change (chunk fields m3 (at_ id sn st (map (expanded_json L) sl) "" "" [] "" "" "" None "") (at_ id sn st (map (expanded_json L) sl) rn rt (map (expanded_json L) rl) "" "" "" None "")) in C3.
  edestruct (text_chunk fields "protocol") with (x := pr) (a := at_ id sn st (map (expanded_json L) sl) rn rt (map (expanded_json L) rl) "" "" "" None "") as (m4 & W4 & C4); [reflexivity|plain_key|intros ->; reflexivity|].
  change (chunk fields m4 (at_ id sn st (map (expanded_json L) sl) rn rt (map (expanded_json L) rl) "" "" "" None "") (at_ id sn st (map (expanded_json L) sl) rn rt (map (expanded_json L) rl) pr "" "" None "")) in C4.
  edestruct (@object_chunk (rule L) fields (jresource L) "resource") with (a := at_ id sn st (map (expanded_json L) sl) rn rt (map (expanded_json L) rl) pr "" "" None "") (b := (ty, na, regex_json L re)) (m := mo) as (m5 & W5 & C5); [reflexivity|plain_key|exact WO|exact CO|].
  change (chunk fields m5 (at_ id sn st (map (expanded_json L) sl) rn rt (map (expanded_json L) rl) pr "" "" None "") (at_ id sn st (map (expanded_json L) sl) rn rt (map (expanded_json L) rl) pr ty na (regex_json L re) "")) in C5.
  edestruct (text_chunk fields "operation") with (x := op) (a := at_ id sn st (map (expanded_json L) sl) rn rt (map (expanded_json L) rl) pr ty na (regex_json L re) "") as (m6 & W6 & C6); [reflexivity|plain_key|intros ->; reflexivity|].
  change (chunk fields m6 (at_ id sn st (map (expanded_json L) sl) rn rt (map (expanded_json L) rl) pr ty na (regex_json L re) "") (at_ id sn st (map (expanded_json L) sl) rn rt (map (expanded_json L) rl) pr ty na (regex_json L re) op)) in C6.
  exists (m1 ++ m2 ++ m3 ++ m4 ++ m5 ++ m6)%list. split; [repeat apply writes_app; auto|].
  eapply chunk_app; [exact C1|]. eapply chunk_app; [exact C2|]. eapply chunk_app; [exact C3|]. eapply chunk_app; [exact C4|]. eapply chunk_app; [exact C5|exact C6].
Qed.
Lemma after_tree r t : sorted_keys (ru_metadata r) -> regex_returns L re_text re_out (ru_operation_regex r) ->
  exists m, writes m (out_text "decision" (ru_decision r) ++
    (match ru_metadata r with [] => [] | m => out_field "metadata" (string_map_json L m) end) ++
    out_text "hash" (ru_hash r) ++
    out_regex L re_out "operationRegex" (ru_operation_regex r) ++
    (if ru_converted r then out_field "-" "true" else []))%list /\
  chunk fields m (mkRule (ru_id r) (ru_sender_name r) (ru_sender_type r) (map (expanded_json L) (ru_sender_list r))
              (ru_receiver_name r) (ru_receiver_type r) (map (expanded_json L) (ru_receiver_list r))
              (ru_protocol r) (ru_resource_type r) (ru_resource_name r) (regex_json L (ru_resource_regex r))
              (ru_operation r) t "" [] "" None false)
     (mkRule (ru_id r) (ru_sender_name r) (ru_sender_type r) (map (expanded_json L) (ru_sender_list r))
              (ru_receiver_name r) (ru_receiver_type r) (map (expanded_json L) (ru_receiver_list r))
              (ru_protocol r) (ru_resource_type r) (ru_resource_name r) (regex_json L (ru_resource_regex r))
              (ru_operation r) t (ru_decision r) (ru_metadata r) (ru_hash r) (regex_json L (ru_operation_regex r))
              (ru_converted r)).
Proof.
  intros HM HR. destruct r as [id sn st sl rn rt rl pr ty na re op tree de me ha ore co]. cbn [ru_id ru_sender_name ru_sender_type ru_sender_list ru_receiver_name ru_receiver_type ru_receiver_list ru_protocol ru_resource_type ru_resource_name ru_resource_regex ru_operation ru_decision ru_metadata ru_hash ru_operation_regex ru_converted] in *.
  set (sl' := map _ sl). set (rl' := map _ rl). set (re' := regex_json L re). clearbody sl' rl' re'.
  pose (at_ := fun de me ha ore co => mkRule (L := L) id sn st sl' rn rt rl' pr ty na re' op t de me ha ore co).
  edestruct (text_chunk fields "decision") with (x := de) (a := at_ "" [] "" None false) as (m1 & W1 & C1); [reflexivity|plain_key|intros ->; reflexivity|].
  change (chunk fields m1 (at_ "" [] "" None false) (at_ de [] "" None false)) in C1.
  assert (H2 : exists m2, writes m2 (match me with [] => [] | m => out_field "metadata" (string_map_json L m) end) /\ chunk fields m2 (at_ de [] "" None false) (at_ de me "" None false)).
  { destruct me as [|e me]; [exists []; split; [constructor|apply chunk_nil]|]. destruct (map_written _ HM) as (fs & es & E & W & J). rewrite E. exists [("metadata", JObj (out_object fs) es)].
    split; [apply writes_field; [plain_key|]; apply writes_object; auto|]. eapply chunk_one; [reflexivity|]. intro k. unfold jd_part, jd_lift, pbind, pret. change (ru_metadata (at_ de [] "" None false)) with (@nil (string * string)).
    rewrite J. reflexivity. }
  destruct H2 as (m2 & W2 & C2).
  edestruct (text_chunk fields "hash") with (x := ha) (a := at_ de me "" None false) as (m3 & W3 & C3); [reflexivity|plain_key|intros ->; reflexivity|].
  change (chunk fields m3 (at_ de me "" None false) (at_ de me ha None false)) in C3.
  edestruct (@regex_chunk (rule L) fields "operationRegex") with (r := ore) (a := at_ de me ha None false) as (m4 & W4 & C4); [reflexivity|plain_key|reflexivity|reflexivity|auto|].
  change (chunk fields m4 (at_ de me ha None false) (at_ de me ha (regex_json L ore) false)) in C4.
  assert (H5 : exists m5, writes m5 (if co then out_field "-" "true" else []) /\ chunk fields m5 (at_ de me ha (regex_json L ore) false) (at_ de me ha (regex_json L ore) co)).
  { destruct co; [|exists []; split; [constructor|apply chunk_nil]]. exists [("-", JBool true)]. split; [apply writes_field; [plain_key|constructor]|]. eapply chunk_one; [reflexivity|]. intro k. reflexivity. }
  destruct H5 as (m5 & W5 & C5). exists (m1 ++ m2 ++ m3 ++ m4 ++ m5)%list. split; [repeat apply writes_app; auto; destruct me; exact W2|].
  eapply chunk_app; [exact C1|]. eapply chunk_app; [exact C2|]. eapply chunk_app; [exact C3|]. eapply chunk_app; [exact C4|exact C5].
Qed.

Lemma writes_unique m m' fs : writes m fs -> writes m' fs -> m' = m.
Proof.
  intros H H'. apply writes_object in H, H'.
  assert (E : forall x, spelled (JObj (out_object fs) x) (out_object fs) -> json_read (out_object fs) = Some (JObj (out_object fs) x)).
  { intros x HX. apply read_iff. exists "", (out_object fs), "". rewrite append_nil_r. repeat split; auto. }
  pose proof (E _ H) as E1. pose proof (E _ H') as E2. rewrite E1 in E2. injection E2 as ->. reflexivity.
Qed.
Definition with_flag {A} (x : res A * nat) : res (A * bool) * nat := match x with (Ok a, t) => (Ok (a, false), t) | (Err, t) => (Err, t) | (Panic, t) => (Panic, t) end.
(** what a rule writes is a document, read as the copy of the rule *)
Theorem rule_doc r : sorted_keys (ru_metadata r) -> spliced_tree L (ru_tree r) -> derived_returns L re_text exp_in exps_out re_out r ->
  match rule_out L exps_out re_out r with
  | Ok s => exists j, spelled j s /\ forall t, jd_rule L ord re_text exp_in j t = with_flag (copy_rule L ord r t)
  | Err => forall t, copy_rule L ord r t = (Err, t)
  | Panic => forall t, copy_rule L ord r t = (Panic, t)
  end.
Proof.
  intros HM HS (H1 & H2 & H3 & H4). pose proof (tree_back L ord (ru_tree r) HS) as HT. unfold rule_out, copy_rule.
  destruct (tree_out L (ru_tree r)) as [s| |]; cbn [rbind]; [|intro t; unfold pbind at 1; rewrite HT; reflexivity|intro t; unfold pbind at 1; rewrite HT; reflexivity].
  destruct HT as ([v HV] & HT). destruct (proj1 (text_spelled L) v s HV) as [j HJ].
  destruct (before_tree r H1 H2 H3) as (mb & WB & CB).
  assert (WT : writes [("conditions", j)] (out_field "conditions" s)) by (apply writes_field; [plain_key|auto]).
  destruct (after_tree r None HM H4) as (ma & WA & _).
  assert (CA : forall n, chunk fields ma (mkRule (ru_id r) (ru_sender_name r) (ru_sender_type r) (map (expanded_json L) (ru_sender_list r))
              (ru_receiver_name r) (ru_receiver_type r) (map (expanded_json L) (ru_receiver_list r))
              (ru_protocol r) (ru_resource_type r) (ru_resource_name r) (regex_json L (ru_resource_regex r))
              (ru_operation r) n "" [] "" None false) (mkRule (ru_id r) (ru_sender_name r) (ru_sender_type r) (map (expanded_json L) (ru_sender_list r))
              (ru_receiver_name r) (ru_receiver_type r) (map (expanded_json L) (ru_receiver_list r))
              (ru_protocol r) (ru_resource_type r) (ru_resource_name r) (regex_json L (ru_resource_regex r))
              (ru_operation r) n (ru_decision r) (ru_metadata r) (ru_hash r) (regex_json L (ru_operation_regex r))
              (ru_converted r))).
  { intro n. destruct (after_tree r n HM H4) as (ma' & WA' & CA'). rewrite (writes_unique _ _ _ WA WA') in CA'. exact CA'. }
  pose proof (writes_app _ _ _ _ WB (writes_app _ _ _ _ WT WA)) as W. rewrite <- !app_assoc in W. rewrite !app_assoc in W. rewrite <- !app_assoc in W. apply writes_object in W. eexists. split; [exact W|]. intro t.
  assert (HC : forall a, jd_members fields ([("conditions", j)] ++ ma)%list a t = pbind (jd_part ru_tree (fun r x => mkRule (ru_id r) (ru_sender_name r) (ru_sender_type r) (ru_sender_list r) (ru_receiver_name r) (ru_receiver_type r) (ru_receiver_list r) (ru_protocol r) (ru_resource_type r) (ru_resource_name r) (ru_resource_regex r) (ru_operation r) x (ru_decision r) (ru_metadata r) (ru_hash r) (ru_operation_regex r) (ru_converted r)) (jd_conditions L ord) j a)
    (fun ab => let '(a1, bad1) := ab in pbind (jd_members fields ma a1) (fun ab2 => let '(a2, bad2) := ab2 in pret (Ok (a2, bad1 || bad2)))) t) by reflexivity.
  assert (HU : forall a, jd_conditions L ord j a t = match unmarshal_json_tree L ord s t with (Ok n, t') => (Ok (n, false), t') | (Err, t') => (Err, t') | (Panic, t') => (Panic, t') end).
  { intro a. unfold jd_conditions. rewrite (spelled_raw j s HJ). unfold pbind, pret. destruct (unmarshal_json_tree L ord s t) as [[n| |] t']; reflexivity. }
  unfold pbind at 1. rewrite HT. unfold jd_rule. cbn [jd_struct]. rewrite (CB ([("conditions", j)] ++ ma)%list t), HC. destruct (unmarshal_json_tree L ord s t) as [res t'].
  unfold jd_part. unfold pbind at 1. unfold pbind at 1. rewrite HU. destruct res as [n| |]; [|reflexivity|reflexivity].
  cbn [ru_id ru_sender_name ru_sender_type ru_sender_list ru_receiver_name ru_receiver_type ru_receiver_list ru_protocol ru_resource_type ru_resource_name ru_resource_regex ru_operation ru_decision ru_metadata ru_hash ru_operation_regex ru_converted].
  pose proof (CA n [] t') as E. rewrite app_nil_r in E. unfold pbind, pret. rewrite E. reflexivity.
Qed.
Theorem copy_is r : sorted_keys (ru_metadata r) -> spliced_tree L (ru_tree r) -> derived_returns L re_text exp_in exps_out re_out r ->
  forall t, copy_text L ord re_text exp_in exps_out re_out r t = copy_rule L ord r t.
Proof.
  intros HM HS HD t. pose proof (rule_doc r HM HS HD) as H. unfold copy_text. unfold pbind at 1. unfold pret at 1. destruct (rule_out L exps_out re_out r) as [s| |]; [|rewrite H; reflexivity|rewrite H; reflexivity].
  destruct H as (j & HJ & HR). unfold json_rule.
  assert (E : json_read s = Some j). { apply read_iff. exists "", s, "". rewrite append_nil_r. repeat split; auto. }
  rewrite E. unfold jd_finish. unfold pbind at 1. rewrite HR. destruct (copy_rule L ord r t) as [[r'| |] t']; reflexivity.
Qed.
(** ** A document with the texts of rules *)
Lemma join_items js ss : ss <> [] -> Forall2 spelled js ss -> items js (join "," ss).
Proof.
  intros HN HF. induction HF as [|v s vs ss HT HF IH]; [congruence|]. destruct HF as [|v2 s2 vs ss HT2 HF].
  - pose proof (it_one v s "" "" I I HT) as H. change ("" ++ s ++ "") with (s ++ "") in H. rewrite append_nil_r in H. exact H.
  - rewrite join_cons. exact (it_cons v s "" "" _ _ I I HT (IH ltac:(discriminate))).
Qed.
Theorem rules_back rs ss : Forall2 (fun r s => rule_out L exps_out re_out r = Ok s /\ sorted_keys (ru_metadata r) /\ spliced_tree L (ru_tree r) /\ derived_returns L re_text exp_in exps_out re_out r /\
    forall t, exists t', copy_rule L ord r t = (Ok r, t')) rs ss ->
  forall t, exists t', json_rules L ord re_text exp_in (rules_text ss) t = (Ok rs, t').
Proof.
  intros HF t.
  assert (HJ : exists js, Forall2 spelled js ss /\ forall t, exists t', jd_items (jd_rule L ord re_text exp_in) js t = (Ok (rs, false), t')).
  { clear t. induction HF as [|r s rs ss (HO & HM & HS & HD & HC) HF (js & IJ & IR)]; [exists []; split; [constructor|]; intro t; exists t; reflexivity|].
    pose proof (rule_doc r HM HS HD) as H. rewrite HO in H. destruct H as (j & HJ & HR). exists (j :: js). split; [constructor; auto|]. intro t. destruct (HC t) as [t1 E1]. destruct (IR t1) as [t2 E2].
    exists t2. cbn [jd_items]. unfold pbind at 1. rewrite HR, E1. cbn [with_flag]. unfold pbind. rewrite E2. reflexivity. }
  destruct HJ as (js & HJ & HR). destruct (HR t) as [t' E]. exists t'.
  assert (HA : exists raw, spelled (JArr raw js) ("[" ++ join "," ss ++ "]")).
  { destruct ss as [|s ss]; [inversion HJ; subst; exists ("[" ++ "" ++ "]"); apply (sp_empty_array ""); exact I|]. eexists. apply sp_array, join_items; [discriminate|auto]. }
  destruct HA as [raw HA]. assert (W : writes [("rules", JArr raw js)] (out_field "rules" ("[" ++ join "," ss ++ "]"))) by (apply writes_field; [plain_key|auto]).
  apply writes_object in W. unfold json_rules.
  assert (ER : json_read (rules_text ss) = Some (JObj (out_object (out_field "rules" ("[" ++ join "," ss ++ "]"))) [("rules", JArr raw js)])).
  { apply read_iff. eexists "", _, "". split; [exact I|]. split; [exact I|]. split; [exact W|]. rewrite append_nil_r. unfold rules_text, out_object, out_field. cbn [join]. rewrite !append_assoc. reflexivity. }
  rewrite ER. unfold jd_finish, jd_rules. cbn [jd_struct jd_members]. change (jd_field _ "rules") with (Some (jd_slice (jd_rule L ord re_text exp_in))). unfold pbind at 1. unfold pbind at 1. cbn [jd_slice]. rewrite E. reflexivity.
Qed.

(** ** Rules as loaded *)
Lemma made_spliced n : copyable L n -> made L n -> spliced L n.
Proof.
  induction n as [ns IH|ns IH|n IH|q a n IH| | |c|] using node_ind'; intros HC HM; inversion HC as [? HE HF|? HE HF|? HF|? ? ? HP HR HF|? HA HB HR]; subst.
  - inversion HM as [? HG| | | |]; subst. apply spl_and. clear HE HC HM. induction IH; inversion HF; inversion HG; subst; constructor; auto.
  - inversion HM as [|? HG| | |]; subst. apply spl_or. clear HE HC HM. induction IH; inversion HF; inversion HG; subst; constructor; auto.
  - inversion HM as [| |? HG| |]; subst. apply spl_not. destruct HG as [->|HG]; [constructor|auto].
  - inversion HM as [| | |? p r ? HI HV HNE HRR|]; subst. cbn [a_orig a_parent] in *. apply spl_quant.
    + cbn [a_orig a_parent]. rewrite (original_same p _ (valid_nonempty p HV)). exists p. apply unescaped_chars. auto.
    + destruct HI as [->|HI]; [constructor|auto].
  - constructor.
Qed.
Lemma faithful_spliced t : faithful_tree L t -> spliced_tree L t.
Proof. destruct t as [n|]; [|intros _; exact I]. intros (HC & o & v & u & u' & HF & HG & HP). apply made_spliced; auto. eapply tree_made; eauto. Qed.
Lemma underived_returns r : underived L r -> derived_returns L re_text exp_in exps_out re_out r.
Proof.
  intros (E1 & E2 & E3 & E4 & _). unfold derived_returns, list_returns, regex_returns. rewrite E1, E2, E3, E4. repeat split; try congruence; intros ? H; discriminate H.
Qed.
Theorem loaded_copy r : fair ord -> underived L r -> faithful_tree L (ru_tree r) -> sorted_keys (ru_metadata r) ->
  forall t, exists t', copy_text L ord re_text exp_in exps_out re_out r t = (Ok r, t').
Proof.
  intros HO HU HF HM t. destruct (rule_copied L ord r HO HU HF t) as [t' E]. exists t'. rewrite copy_is; auto using faithful_spliced, underived_returns.
Qed.
Theorem loaded_texts rs : fair ord -> Forall (fun r => underived L r /\ faithful_tree L (ru_tree r) /\ sorted_keys (ru_metadata r)) rs ->
  exists ss, Forall2 (fun r s => rule_out L exps_out re_out r = Ok s) rs ss /\ forall t, exists t', json_rules L ord re_text exp_in (rules_text ss) t = (Ok rs, t').
Proof.
  intros HO HR.
  assert (HX : exists ss, Forall2 (fun r s => rule_out L exps_out re_out r = Ok s /\ sorted_keys (ru_metadata r) /\ spliced_tree L (ru_tree r) /\ derived_returns L re_text exp_in exps_out re_out r /\
    forall t, exists t', copy_rule L ord r t = (Ok r, t')) rs ss).
  { induction HR as [|r rs (HU & HF & HM) HR (ss & IS)]; [exists []; constructor|]. pose proof (rule_doc r HM (faithful_spliced _ HF) (underived_returns r HU)) as HD.
    pose proof (rule_copied L ord r HO HU HF) as HC. destruct (rule_out L exps_out re_out r) as [s| |] eqn:E.
    - exists (s :: ss). constructor; auto. repeat split; auto using faithful_spliced, underived_returns; apply underived_returns; auto.
    - destruct (HC 0) as [t' E']. rewrite HD in E'. discriminate E'.
    - destruct (HC 0) as [t' E']. rewrite HD in E'. discriminate E'. }
  destruct HX as [ss HX]. exists ss. split; [|apply rules_back; auto]. clear -HX. induction HX as [|r s rs ss [H _] HX IH]; constructor; auto.
Qed.
End WithLib.
