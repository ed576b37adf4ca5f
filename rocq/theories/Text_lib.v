(** A library whose jsonslice.Get returns texts without escapes; it shows that the needs of Spec_Backends can be met. *)
From Coq Require Import List String Ascii Bool Arith ZArith Lia.
From Verif Require Import Base GoStr GoStr_facts GoFloat Types Json Spec_Glob Glob_proofs Spec_Tree Spec_Leaf Spec_Json Json_proofs Spec_Split RefLib Spec_MongoMatch RefLib_paths Spec_Backends Backends_proofs.
Import ListNotations.
Open Scope string_scope.

(** the value as JSON text *)
Fixpoint show (v : iface) : string :=
  match v with
  | GNil => "null"
  | GBool b => if b then "true" else "false"
  | GStr s => dqs ++ s ++ dqs
  | GFloat f => ref_fmt_float f
  | GArr l => "[" ++ String.concat "," (map show l) ++ "]"
  | GMapS m => "{" ++ String.concat "," (map (fun e => (dqs ++ fst e ++ dqs) ++ ":" ++ show (snd e)) m) ++ "}"
  | _ => ""
  end.
Definition text_js_get (data path : string) : string * bool :=
  match ref_jp_prepare path, json_parse BaseLib data with
  | Some p, Some v =>
    match walk p v with
    | One x => (show x, false)
    | Many l => (show (GArr l), false)
    | Fail _ => ("", false)
    end
  | _, _ => ("", true)
  end.
Definition TextLib : Lib :=
  mkLib _ (re_compile RefLib) (re_match RefLib) (list step) ref_jp_prepare ref_jp_query
    text_js_get (ref_ugly_from false false)
    ref_parse_float ref_fmt_float ref_json_float (fun _ => "map[]")
    ref_parse_ip ref_parse_cidr ref_parse_time (fun s => s) (re_json RefLib).

(** ** Printing *)
Notation laid := (laid_out TextLib).
Notation tight := (compact TextLib).
Notation none := (fun w : string => w = "").
Lemma concat_cons2 w x y l : String.concat w (x :: y :: l) = x ++ w ++ String.concat w (y :: l).
Proof. reflexivity. Qed.
Lemma shown :
  (forall v s, plain TextLib spaces v s -> tight v (show v)) /\
  (forall vs s, plain_elements TextLib spaces vs s -> plain_elements TextLib none vs (String.concat "," (map show vs))) /\
  (forall kvs s, plain_members TextLib spaces kvs s -> plain_members TextLib none kvs (String.concat "," (map (fun e => (dqs ++ fst e ++ dqs) ++ ":" ++ show (snd e)) kvs))).
Proof.
  assert (NE : forall vs s, plain_elements TextLib spaces vs s -> vs <> []) by (intros vs s H; destruct H; discriminate).
  assert (NM : forall vs s, plain_members TextLib spaces vs s -> vs <> []) by (intros vs s H; destruct H; discriminate).
  apply (plain_all_mind TextLib spaces (fun v s _ => tight v (show v)) (fun vs s _ => plain_elements TextLib none vs (String.concat "," (map show vs)))
    (fun kvs s _ => plain_members TextLib none kvs (String.concat "," (map (fun e => (dqs ++ fst e ++ dqs) ++ ":" ++ show (snd e)) kvs)))); intros.
  - apply pl_null.
  - apply pl_true.
  - apply pl_false.
  - apply pl_string. auto.
  - exact (pl_number TextLib none f n e).
  - apply (pl_empty_array TextLib none ""). auto.
  - apply (pl_array TextLib none). auto.
  - apply (pl_empty_object TextLib none ""). auto.
  - apply (pl_object TextLib none); auto.
  - cbn [map String.concat]. rewrite <- (append_nil_r (show v)). exact (pe_one TextLib none v (show v) "" "" eq_refl eq_refl H).
  - destruct vs as [|v2 vs]; [exfalso; eapply NE; eauto|]. cbn [map]. rewrite concat_cons2. exact (pe_cons TextLib none v (show v) "" "" (v2 :: vs) _ eq_refl eq_refl H H0).
  - cbn [map String.concat fst snd]. rewrite <- (append_nil_r (show v)). exact (pm_one TextLib none k v (show v) "" "" "" "" eq_refl eq_refl eq_refl eq_refl p H).
  - destruct kvs as [|e2 kvs]; [exfalso; eapply NM; eauto|]. cbn [map]. rewrite concat_cons2. cbn [fst snd].
    replace (((dqs ++ k ++ dqs) ++ ":" ++ show v) ++ "," ++ String.concat "," (((dqs ++ fst e2 ++ dqs) ++ ":" ++ show (snd e2)) :: map (fun e => (dqs ++ fst e ++ dqs) ++ ":" ++ show (snd e)) kvs))
      with ("" ++ (dqs ++ k ++ dqs) ++ "" ++ ":" ++ "" ++ show v ++ "" ++ "," ++ String.concat "," (((dqs ++ fst e2 ++ dqs) ++ ":" ++ show (snd e2)) :: map (fun e => (dqs ++ fst e ++ dqs) ++ ":" ++ show (snd e)) kvs))
      by (rewrite !append_assoc; reflexivity).
    exact (pm_cons TextLib none k v (show v) "" "" "" "" (e2 :: kvs) _ eq_refl eq_refl eq_refl eq_refl p H H0).
Qed.
Lemma member_shown k kvs s x : plain_members TextLib spaces kvs s -> assoc k kvs = Some x -> exists t, laid x t.
Proof.
  induction 1; cbn [assoc]; destruct (String.eqb _ _); intro E; try discriminate E; try (injection E as <-; eexists; eauto; fail); auto.
Qed.
Lemma path_shown ks d x : at_path ks d (Some x) -> forall t, laid d t -> exists s, laid x s.
Proof.
  intro H. remember (Some x) as w eqn:EW. induction H as [v|k ks o y w HA HP IH| |]; try discriminate EW; intros t HT.
  - injection EW as ->. eauto.
  - inversion HT as [| | | | | | |w' HW|kvs s HM HD]; subst; [discriminate HA|]. destruct (member_shown _ _ _ _ HM HA) as [t' HT']. eauto.
Qed.

(** ** White space *)
Notation ugly_text := (ref_ugly_from false false).
Lemma ugly_spaces w r : spaces w -> ugly_text (w ++ r) = ugly_text r.
Proof.
  induction w as [|c w IH]; intro H; auto. destruct H as [HC HW]. cbn [append ref_ugly_from].
  replace (nat_of_ascii c <=? 32)%nat with true; auto. symmetry. apply Nat.leb_le. unfold space_char in HC. simpl in HC. intuition lia.
Qed.
Lemma ugly_kept s r : all_chars (fun c => (32 < nat_of_ascii c)%nat /\ c <> dq) s -> ugly_text (s ++ r) = s ++ ugly_text r.
Proof.
  induction s as [|c s IH]; intro H; auto. destruct H as [[HC HQ] H]. cbn [append ref_ugly_from].
  replace (nat_of_ascii c <=? 32)%nat with false by (symmetry; apply Nat.leb_gt; auto). apply Ascii.eqb_neq in HQ. rewrite HQ, IH by auto. auto.
Qed.
Lemma ugly_string s r : plain_string s -> ugly_text ((dqs ++ s ++ dqs) ++ r) = (dqs ++ s ++ dqs) ++ ugly_text r.
Proof.
  intro H. rewrite !append_assoc. unfold dqs. cbn [append]. cbn [ref_ugly_from]. change (nat_of_ascii dq <=? 32)%nat with false. cbv iota. change (Ascii.eqb dq dq) with true. f_equal.
  induction s as [|c s IH]; cbn [append ref_ugly_from].
  - change (Ascii.eqb dq dq) with true. change (Ascii.eqb dq bslash) with false. reflexivity.
  - destruct H as [(_ & H1 & H2 & _) H]. apply Ascii.eqb_neq in H1, H2. rewrite H1, H2. cbn [negb orb andb]. f_equal. auto.
Qed.
Lemma kept_one c r : (32 < nat_of_ascii c)%nat -> c <> dq -> ugly_text (String c r) = String c (ugly_text r).
Proof. intros H1 H2. apply (ugly_kept (String c "") r). repeat split; auto. Qed.

Ltac kept := repeat split; [simpl; lia|discriminate].
Lemma ugly_texts :
  (forall v s, plain TextLib spaces v s -> exists s', tight v s' /\ forall r, ugly_text (s ++ r) = s' ++ ugly_text r) /\
  (forall vs s, plain_elements TextLib spaces vs s -> exists s', plain_elements TextLib none vs s' /\ forall r, ugly_text (s ++ r) = s' ++ ugly_text r) /\
  (forall kvs s, plain_members TextLib spaces kvs s -> exists s', plain_members TextLib none kvs s' /\ forall r, ugly_text (s ++ r) = s' ++ ugly_text r).
Proof.
  assert (K : forall c r, In c ["["; "]"; "{"; "}"; ","; ":"]%char -> ugly_text (String c r) = String c (ugly_text r)).
  { intros c r H. apply kept_one; simpl in H; repeat (destruct H as [<-|H]; [first [discriminate|vm_compute; lia]|]); destruct H. }
  apply (plain_all_mind TextLib spaces (fun v s _ => exists s', tight v s' /\ forall r, ugly_text (s ++ r) = s' ++ ugly_text r)
    (fun vs s _ => exists s', plain_elements TextLib none vs s' /\ forall r, ugly_text (s ++ r) = s' ++ ugly_text r)
    (fun kvs s _ => exists s', plain_members TextLib none kvs s' /\ forall r, ugly_text (s ++ r) = s' ++ ugly_text r)).
  - exists "null". split; [apply pl_null|]. reflexivity.
  - exists "true". split; [apply pl_true|]. reflexivity.
  - exists "false". split; [apply pl_false|]. reflexivity.
  - intros s HS. exists (dqs ++ s ++ dqs). split; [apply pl_string; auto|]. intro r. apply ugly_string. auto.
  - intros f HN HF. exists (ref_fmt_float f). split; [exact (pl_number TextLib none f HN HF)|]. intro r. apply ugly_kept. change (number_text (ref_fmt_float f)) in HN.
    apply number_all; auto; try (split; [vm_compute; lia|discriminate]). intros c HC. unfold digit_char in HC. split; [lia|]. intros ->. vm_compute in HC. lia.
  - intros w HW. exists ("[" ++ "" ++ "]"). split; [apply (pl_empty_array TextLib none ""); auto|]. intro r. cbn [append]. rewrite K by (simpl; auto). rewrite append_assoc, ugly_spaces by auto.
    cbn [append]. rewrite K by (simpl; auto). auto.
  - intros vs s _ (s' & HS & IH). exists ("[" ++ s' ++ "]"). split; [apply (pl_array TextLib none); auto|]. intro r. cbn [append]. rewrite K by (simpl; auto). rewrite append_assoc, IH.
    cbn [append]. rewrite K by (simpl; auto). rewrite append_assoc. auto.
  - intros w HW. exists ("{" ++ "" ++ "}"). split; [apply (pl_empty_object TextLib none ""); auto|]. intro r. cbn [append]. rewrite K by (simpl; auto). rewrite append_assoc, ugly_spaces by auto.
    cbn [append]. rewrite K by (simpl; auto 6). auto.
  - intros vs s _ (s' & HS & IH) HD. exists ("{" ++ s' ++ "}"). split; [apply (pl_object TextLib none); auto|]. intro r. cbn [append]. rewrite K by (simpl; auto). rewrite append_assoc, IH.
    cbn [append]. rewrite K by (simpl; auto 6). rewrite append_assoc. auto.
  - intros v s w1 w2 H1 H2 _ (s' & HS & IH). exists ("" ++ s' ++ ""). split; [exact (pe_one TextLib none v s' "" "" eq_refl eq_refl HS)|]. intro r.
    rewrite !append_assoc, ugly_spaces, IH, ugly_spaces by auto. auto.
  - intros v s w1 w2 vs u H1 H2 _ (s' & HS & IH) _ (u' & HU & IHU). exists ("" ++ s' ++ "" ++ "," ++ u'). split; [exact (pe_cons TextLib none v s' "" "" vs u' eq_refl eq_refl HS HU)|]. intro r.
    rewrite !append_assoc, ugly_spaces, IH, ugly_spaces by auto. cbn [append]. rewrite K by (simpl; auto 6). rewrite IHU. auto.
  - intros k v s w1 w2 w3 w4 H1 H2 H3 H4 HK _ (s' & HS & IH). exists ("" ++ (dqs ++ k ++ dqs) ++ "" ++ ":" ++ "" ++ s' ++ "").
    split; [exact (pm_one TextLib none k v s' "" "" "" "" eq_refl eq_refl eq_refl eq_refl HK HS)|]. intro r.
    replace ((w1 ++ (dqs ++ k ++ dqs) ++ w2 ++ ":" ++ w3 ++ s ++ w4) ++ r) with (w1 ++ (dqs ++ k ++ dqs) ++ (w2 ++ ":" ++ w3 ++ s ++ w4 ++ r)) by (rewrite !append_assoc; auto).
    rewrite ugly_spaces, ugly_string, ugly_spaces by auto. cbn [append]. rewrite K by (simpl; auto 8). rewrite ugly_spaces, IH, ugly_spaces by auto. rewrite append_nil_r, !append_assoc. reflexivity.
  - intros k v s w1 w2 w3 w4 kvs u H1 H2 H3 H4 HK _ (s' & HS & IH) _ (u' & HU & IHU). exists ("" ++ (dqs ++ k ++ dqs) ++ "" ++ ":" ++ "" ++ s' ++ "" ++ "," ++ u').
    split; [exact (pm_cons TextLib none k v s' "" "" "" "" kvs u' eq_refl eq_refl eq_refl eq_refl HK HS HU)|]. intro r.
    replace ((w1 ++ (dqs ++ k ++ dqs) ++ w2 ++ ":" ++ w3 ++ s ++ w4 ++ "," ++ u) ++ r) with (w1 ++ (dqs ++ k ++ dqs) ++ (w2 ++ ":" ++ w3 ++ s ++ w4 ++ "," ++ u ++ r)) by (rewrite !append_assoc; auto).
    rewrite ugly_spaces, ugly_string, ugly_spaces by auto. cbn [append]. rewrite K by (simpl; auto 8). rewrite ugly_spaces, IH, ugly_spaces by auto. cbn [append].
    rewrite K by (simpl; auto 8). rewrite IHU. rewrite !append_assoc. cbn [append]. rewrite ?append_assoc. reflexivity.
Qed.

(** ** The library meets the needs *)
Lemma parse_same s : json_parse BaseLib s = json_parse TextLib s.
Proof. reflexivity. Qed.
Theorem TextLib_text : TextSpec TextLib.
Proof.
  assert (SH : forall v t, laid v t -> laid v (show v)) by (intros v t H; apply compact_out; apply (proj1 shown _ _ H)).
  split; [|split].
  - intros ks d t w HN HF HT HA. pose proof (ref_plain_path ks "" HN HF ltac:(simpl; auto)) as E. rewrite append_nil_r in E. cbn [String.eqb] in E.
    pose proof (out_parses TextLib _ _ HT) as EP. rewrite <- parse_same in EP. unfold fetch. cbn [TextLib js_get]. unfold text_js_get. rewrite E, EP.
    destruct (walk_path ks d w [] HA) as [W1 W2]. destruct w as [v|].
    + rewrite W1. cbn [walk]. exists (show v). split; auto. destruct (path_shown _ _ _ HA _ HT) as [s HS]. eauto.
    + destruct (W2 eq_refl) as [e ->]. auto.
  - intros ks mark d t w HN HF HM HT HA. pose proof (ref_plain_path ks mark HN HF HM) as E.
    pose proof (out_parses TextLib _ _ HT) as EP. rewrite <- parse_same in EP. unfold fetch. cbn [TextLib js_get]. unfold text_js_get. rewrite E, EP.
    destruct (walk_path ks d w (if String.eqb mark "" then [] else [SAll]) HA) as [W1 W2]. destruct w as [v|].
    + rewrite W1. destruct v as [| | | | |l| |]; auto. destruct (path_shown _ _ _ HA _ HT) as [s HS].
      destruct (String.eqb mark ""); cbn [walk items].
      * eexists. split; [reflexivity|]. eauto.
      * assert (EM : merge (map (fun v => One v) l) = l) by (clear; induction l; cbn [map merge]; f_equal; auto). rewrite EM. eexists. split; [reflexivity|]. eauto.
    + destruct (W2 eq_refl) as [e ->]. auto.
  - intros v t HT. destruct (proj1 ugly_texts _ _ HT) as (s' & HS & HU). specialize (HU ""). rewrite !append_nil_r in HU.
    change (tight v (ugly_text t)). rewrite HU. auto.
Qed.
Theorem TextLib_accepts : PathsAccepted TextLib.
Proof. intros ks mark HN HF HM. change (ref_jp_prepare ("$." ++ dotted ks ++ mark) <> None). rewrite ref_plain_path by auto. discriminate. Qed.
Theorem TextLib_path : PathSpec TextLib.
Proof. exact RefLib_path. Qed.
