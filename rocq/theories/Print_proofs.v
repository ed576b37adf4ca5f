(** Proofs about the JSON printer. *)
From Coq Require Import List String Ascii Bool Arith ZArith Permutation Lia.
From Verif Require Import Base GoStr GoStr_facts GoFloat Types Json Spec_Glob Spec_Json Json_proofs Load_proofs.
Import ListNotations.
Open Scope string_scope.
Local Arguments String.prefix : simpl never.

(** ** The order of keys *)
Lemma str_leb_eq a : forall b, str_leb a b = String.leb a b.
Proof.
  induction a as [|x a IH]; intros [|y b]; try reflexivity. unfold String.leb in *. cbn [str_leb String.compare]. unfold Ascii.compare.
  rewrite IH. unfold nat_of_ascii.
  destruct (N.compare_spec (N_of_ascii x) (N_of_ascii y)) as [E|E|E].
  - rewrite E. rewrite !Nat.ltb_irrefl. auto.
  - destruct (Nat.ltb_spec (N.to_nat (N_of_ascii x)) (N.to_nat (N_of_ascii y))); [auto|lia].
  - destruct (Nat.ltb_spec (N.to_nat (N_of_ascii x)) (N.to_nat (N_of_ascii y))); [lia|].
    destruct (Nat.ltb_spec (N.to_nat (N_of_ascii y)) (N.to_nat (N_of_ascii x))); [auto|lia].
Qed.
Lemma leb_false a b : String.leb a b = false -> String.leb b a = true.
Proof. unfold String.leb. rewrite (String.compare_antisym b a). destruct (String.compare a b); simpl; congruence. Qed.
Lemma leb_ltb a b : String.leb a b = true -> a <> b -> String.ltb a b = true.
Proof.
  unfold String.leb, String.ltb. destruct (String.compare a b) eqn:E; auto; intros. apply String.compare_eq_iff in E. congruence.
Qed.
Lemma ltb_leb a b : String.ltb a b = true -> String.leb a b = true.
Proof. unfold String.leb, String.ltb. destruct (String.compare a b); congruence. Qed.

Section Sort.
Context {A : Type}.
Implicit Types l : list (string * A).
Lemma insert_perm (x : string * A) l : Permutation (insert_key x l) (x :: l).
Proof.
  induction l as [|y l IH]; [auto|]. cbn [insert_key]. destruct (str_leb _ _); auto.
  eapply Permutation_trans; [apply perm_skip, IH|apply perm_swap].
Qed.
Lemma sort_perm l : Permutation (sort_keys l) l.
Proof. induction l as [|x l IH]; [auto|]. cbn [sort_keys]. eapply Permutation_trans; [apply insert_perm|auto]. Qed.
Lemma insert_sorted (x : string * A) l : sorted_keys l -> ~ In (fst x) (keys l) -> sorted_keys (insert_key x l).
Proof.
  induction l as [|y l IH]; intros HS HN; [constructor|]. cbn [insert_key]. simpl in HN. rewrite str_leb_eq.
  destruct (String.leb (fst x) (fst y)) eqn:E.
  - constructor; auto. apply leb_ltb; auto.
  - apply leb_false in E. assert (HI : sorted_keys (insert_key x l)) by (apply IH; [inversion HS; subst; [constructor|auto]|tauto]).
    destruct l as [|z l].
    + simpl. constructor; [apply leb_ltb; auto|constructor].
    + cbn [insert_key] in *. destruct (str_leb (fst x) (fst z)).
      * constructor; auto. apply leb_ltb; auto.
      * constructor; auto. inversion HS; auto.
Qed.
Lemma perm_keys l l' : Permutation l l' -> Permutation (keys l) (keys l').
Proof. apply Permutation_map. Qed.
Lemma sort_sorted l : NoDup (keys l) -> sorted_keys (sort_keys l).
Proof.
  induction l as [|x l IH]; intro H; [constructor|]. inversion H; subst. cbn [sort_keys]. apply insert_sorted; auto.
  intro HI. apply H2. eapply Permutation_in; [apply perm_keys, sort_perm|auto].
Qed.
Lemma sorted_sort l : sorted_keys l -> sort_keys l = l.
Proof.
  induction l as [|x l IH]; intro H; [auto|]. cbn [sort_keys]. rewrite IH by (inversion H; subst; [constructor|auto]).
  destruct l as [|y l]; [auto|]. cbn [insert_key]. inversion H; subst. rewrite str_leb_eq, ltb_leb by auto. auto.
Qed.
End Sort.

(** ** Strings *)
Lemma hex_digit_hex n : (n < 16)%nat -> hex (hex_digit n) n.
Proof. intro H. do 16 (destruct n as [|n]; [unfold hex; simpl; tauto|]). lia. Qed.
Lemma escape_char_chars c x s : chars x s -> chars (String c x) (json_escape_char c ++ s).
Proof.
  intro H. unfold json_escape_char.
  destruct (Ascii.eqb c dq) eqn:E1; [apply Ascii.eqb_eq in E1; subst c; apply (cs_escape dq dq); simpl; auto|].
  destruct (Ascii.eqb c bslash) eqn:E2; [apply Ascii.eqb_eq in E2; subst c; apply (cs_escape bslash bslash); simpl; auto|].
  apply Ascii.eqb_neq in E1, E2.
  destruct (Nat.eqb_spec (nat_of_ascii c) 10) as [E|E3];
    [rewrite <- (ascii_nat_embedding c), E; apply (cs_escape "n" "010"); simpl; tauto|].
  destruct (Nat.eqb_spec (nat_of_ascii c) 13) as [E|E4];
    [rewrite <- (ascii_nat_embedding c), E; apply (cs_escape "r" "013"); simpl; tauto|].
  destruct (Nat.eqb_spec (nat_of_ascii c) 9) as [E|E5];
    [rewrite <- (ascii_nat_embedding c), E; apply (cs_escape "t" "009"); simpl; tauto|].
  destruct (_ || _ || _ || _) eqn:E6.
  - assert (HB : (nat_of_ascii c < 128)%nat).
    { rewrite !orb_true_iff in E6. rewrite Nat.ltb_lt in E6. destruct E6 as [[[E|E]|E]|E]; [lia| | |]; apply Ascii.eqb_eq in E; subst; simpl; unfold nat_of_ascii; simpl; lia. }
    set (n := nat_of_ascii c) in *.
    assert (H1 : (n / 16 < 8)%nat) by (apply Nat.div_lt_upper_bound; lia).
    assert (H2 : (n mod 16 < 16)%nat) by (apply Nat.mod_upper_bound; lia).
    assert (HZ : hex "0" 0) by (unfold hex; simpl; auto).
    assert (HU : unit_text (code_point 0 0 (n / 16) (n mod 16)) (unit_chars "0" "0" (hex_digit (n / 16)) (hex_digit (n mod 16)) "")).
    { exists "0"%char, "0"%char, (hex_digit (n / 16)), (hex_digit (n mod 16)), 0%nat, 0%nat, (n / 16)%nat, (n mod 16)%nat.
      pose proof (hex_digit_hex (n / 16) ltac:(lia)). pose proof (hex_digit_hex (n mod 16) H2). auto 10. }
    assert (NH : ~ high_unit (code_point 0 0 (n / 16) (n mod 16))) by (rewrite high_digits by lia; lia).
    assert (NL : ~ low_unit (code_point 0 0 (n / 16) (n mod 16))) by (rewrite low_digits by lia; lia).
    pose proof (cs_unicode _ _ x s HU NH NL H) as HC.
    assert (EU : utf8_bytes (code_point 0 0 (n / 16) (n mod 16)) = String c "").
    { assert (EN : code_point 0 0 (n / 16) (n mod 16) = N_of_ascii c).
      { unfold code_point. pose proof (Nat.div_mod n 16). unfold n, nat_of_ascii in *. lia. }
      rewrite EN. unfold utf8_bytes. destruct (N.ltb_spec (N_of_ascii c) 128).
      - unfold byte. rewrite ascii_N_embedding. auto.
      - unfold n, nat_of_ascii in HB. lia. }
    rewrite EU in HC. exact HC.
  - rewrite !orb_false_iff in E6. destruct E6 as [[[E6 _] _] _]. apply Nat.ltb_ge in E6. apply cs_plain; auto.
Qed.
Lemma escape_chars x : chars x (json_escape x).
Proof. induction x as [|c x IH]; [constructor|]. apply escape_char_chars. auto. Qed.

Section WithLib.
Variable L : Lib.

Lemma string_text x : text L (GStr x) (json_string x).
Proof. apply tx_string, escape_chars. Qed.

(** ** Lists and objects without spaces *)
Lemma join_cons a b l : join "," (a :: b :: l) = a ++ "," ++ join "," (b :: l).
Proof. reflexivity. Qed.
Lemma join_elements vs ss : vs <> [] -> Forall2 (text L) vs ss -> elements L vs (join "," ss).
Proof.
  intros HN HF. induction HF as [|v s vs ss HT HF IH]; [congruence|]. destruct HF as [|v2 s2 vs ss HT2 HF].
  - pose proof (el_one L v s "" "" I I HT) as H. change ("" ++ s ++ "") with (s ++ "") in H. rewrite append_nil_r in H. exact H.
  - rewrite join_cons. exact (el_cons L v s "" "" _ _ I I HT (IH ltac:(discriminate))).
Qed.
Lemma array_text vs ss : Forall2 (text L) vs ss -> text L (GArr vs) ("[" ++ join "," ss ++ "]").
Proof.
  intro H. destruct vs as [|v vs]; [inversion H; subst; apply (tx_empty_array L ""); exact I|].
  apply tx_array, join_elements; [discriminate|auto].
Qed.

Definition member (k s : string) : string := dqs ++ k ++ dqs ++ ":" ++ s.
Lemma join_members (kvs : list (string * iface)) ss : kvs <> [] ->
  Forall2 (fun kv s => exists ks t, s = member ks t /\ chars (fst kv) ks /\ text L (snd kv) t) kvs ss -> members L kvs (join "," ss).
Proof.
  intros HN HF. induction HF as [|(k, v) s kvs ss (ks & t & -> & HK & HT) HF IH]; [congruence|]. cbn [fst snd] in *.
  destruct HF as [|kv2 s2 kvs ss H2 HF].
  - pose proof (mb_one L k ks v t "" "" "" "" I I I I HK HT) as H. unfold member. simpl join.
    rewrite !append_assoc in H. simpl append in H. rewrite append_nil_r in H. exact H.
  - rewrite join_cons. pose proof (mb_cons L k ks v t "" "" "" "" _ _ I I I I HK HT (IH ltac:(discriminate))) as H.
    rewrite !append_assoc in H. unfold member. rewrite !append_assoc. exact H.
Qed.
Lemma object_id kvs : NoDup (keys kvs) -> object kvs = GMapS kvs.
Proof.
  intro H. unfold object. f_equal.
  assert (HG : forall acc, NoDup (keys acc ++ keys kvs)%list -> fold_left (fun acc (kv : string * iface) => upsert (fst kv) (snd kv) acc) kvs acc = (acc ++ kvs)%list).
  { clear H. induction kvs as [|(k, v) kvs IH]; intros acc H; simpl; [rewrite app_nil_r; auto|].
    rewrite upsert_new. 
    - rewrite IH; [rewrite <- app_assoc; auto|]. unfold keys in *. rewrite map_app. simpl. rewrite <- app_assoc. exact H.
    - intro HI. apply NoDup_remove_2 in H. apply H, in_or_app. auto. }
  rewrite HG; auto.
Qed.
Lemma object_text kvs ss : NoDup (keys kvs) ->
  Forall2 (fun kv s => exists ks t, s = member ks t /\ chars (fst kv) ks /\ text L (snd kv) t) kvs ss ->
  text L (GMapS kvs) ("{" ++ join "," ss ++ "}").
Proof.
  intros HN H. destruct kvs as [|v vs]; [inversion H; subst; apply (tx_empty_object L ""); exact I|].
  rewrite <- object_id by auto. apply tx_object, join_members; [discriminate|auto].
Qed.

(** ** Values *)
Lemma all_some_forall2 {A B} (R : A -> B -> Prop) (f : A -> option B) l : Forall (fun a => exists b, f a = Some b /\ R a b) l ->
  exists bs, all_some (map f l) = Some bs /\ Forall2 R l bs.
Proof.
  induction 1 as [|a l (b & E & HR) HF (bs & EB & IH)]; [exists []; auto|]. exists (b :: bs). simpl. rewrite E, EB. auto.
Qed.

Theorem print_text v : numberless v -> exists v' s, json_marshal L v = Some s /\ text L v' s /\ key_order v v'.
Proof.
  induction v as [| | | | |l IH|m IH|m IH] using iface_ind'; intro HN.
  - exists GNil, "null". repeat split; constructor.
  - exists (GBool b), (if b then "true" else "false"). split; [auto|]. split; [destruct b; constructor|constructor].
  - inversion HN.
  - inversion HN.
  - exists (GStr s), (json_string s). split; [auto|]. split; [apply string_text|constructor].
  - inversion HN as [| | |? HF|]; subst.
    destruct (all_some_forall2 (fun v s => exists v', text L v' s /\ key_order v v') (json_marshal L) l) as (ss & ES & HS).
    { clear HN. induction IH; inversion HF; subst; constructor; auto. destruct (H H2) as (v' & s & E & HT & HK). eauto. }
    assert (HV : exists vs, Forall2 (text L) vs ss /\ Forall2 key_order l vs).
    { clear -HS. induction HS as [|v s l ss (v' & HT & HK) HS (vs & H1 & H2)]; [exists []; auto|]. exists (v' :: vs). auto. }
    destruct HV as (vs & H1 & H2). exists (GArr vs), ("[" ++ join "," ss ++ "]"). split; [simpl; rewrite ES; auto|].
    split; [apply array_text; auto|constructor; auto].
  - inversion HN as [| | | |? HD HF]; subst.
    destruct (all_some_forall2 (fun kv ks => fst ks = fst kv /\ exists v', text L v' (snd ks) /\ key_order (snd kv) v')
      (fun kv => option_map (pair (fst kv)) (json_marshal L (snd kv))) m) as (ss & ES & HS).
    { clear HN HD. induction IH as [|kv m H IH2 IHm]; inversion HF; subst; constructor; auto.
      destruct (H H2) as (v' & s & E & HT & HK). exists (fst kv, s). rewrite E. simpl. eauto. }
    assert (HV : exists m2, Forall2 (fun e ks => fst ks = fst e /\ text L (snd e) (snd ks)) m2 ss /\
      Forall2 (fun a b => fst a = fst b /\ key_order (snd a) (snd b)) m m2).
    { clear -HS. induction HS as [|kv ks m ss (E & v' & HT & HK) HS (m2 & H1 & H2)]; [exists []; auto|].
      exists ((fst kv, v') :: m2). split; constructor; auto. }
    destruct HV as (m2 & H1 & H2).
    assert (HP : exists m3, Permutation m2 m3 /\ Forall2 (fun e ks => fst ks = fst e /\ text L (snd e) (snd ks)) m3 (sort_keys ss)).
    { pose proof (sort_perm ss) as HP. apply Permutation_sym in HP. clear -H1 HP. remember (sort_keys ss) as q. clear Heqq.
      revert m2 H1. induction HP; intros m2 H1.
      - inversion H1; subst. exists []. auto.
      - inversion H1; subst. destruct (IHHP _ H4) as (m3 & P1 & P2). exists (x0 :: m3). auto.
      - inversion H1; subst. inversion H4; subst. exists (x1 :: x0 :: l1). split; [constructor|auto].
      - destruct (IHHP1 _ H1) as (m3 & P1 & P2). destruct (IHHP2 _ P2) as (m4 & P3 & P4). exists m4. split; auto. eapply Permutation_trans; eauto. }
    destruct HP as (m3 & HP & H3).
    assert (EK : forall (a : list (string * iface)) b, Forall2 (fun e (ks : string * string) => fst ks = fst e /\ text L (snd e) (snd ks)) a b -> keys a = keys b).
    { clear. induction 1 as [|e ks a b (E & _) HF IH]; [auto|]. unfold keys in *. simpl. rewrite IH, E. auto. }
    assert (EK2 : keys m = keys m2).
    { clear -H2. unfold keys. induction H2 as [|e ks a b (E & _) HF IH]; [auto|]. simpl. rewrite IH, E. auto. }
    assert (HSS : sorted_keys (sort_keys ss)) by (apply sort_sorted; rewrite <- (EK _ _ H1), <- EK2; auto).
    assert (HS3 : sorted_keys m3).
    { clear -H3 HSS. revert HSS. induction H3 as [|e ks a b (E & _) HF IH]; intro HSS; [constructor|]. inversion HF as [|e2 ks2 a2 b2 (E2 & _) HF2]; subst; [constructor|].
      inversion HSS; subst. constructor; auto. rewrite <- E, <- E2. auto. }
    assert (HN3 : NoDup (keys m3)).
    { eapply Permutation_NoDup; [apply perm_keys, HP|]. rewrite <- EK2. auto. }
    eexists (GMapS m3), _. split; [cbn [json_marshal]; rewrite ES; reflexivity|].
    split; [|eapply ko_map; eauto].
    apply object_text; auto. clear -H3. induction H3 as [|e ks a b (E & HT) HF IH]; simpl; constructor; auto.
    exists (json_escape (fst ks)), (snd ks). split; [|split; [rewrite E; apply escape_chars|auto]].
    unfold json_string, member. rewrite !append_assoc. auto.
  - inversion HN.
Qed.

Theorem print_parse v : numberless v -> exists v' s, json_marshal L v = Some s /\ json_parse L s = Some v' /\ key_order v v'.
Proof.
  intro H. destruct (print_text v H) as (v' & s & E & HT & HK). exists v', s. split; auto. split; auto.
  apply document_parses. exists "", s, "". repeat split; auto. simpl. rewrite append_nil_r. auto.
Qed.
End WithLib.
