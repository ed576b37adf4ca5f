(** Derived fields of messages. *)
From Coq Require Import List String Ascii Bool Arith ZArith Lia.
From Verif Require Import Base GoStr GoStr_facts GoFloat Types Json Messages Spec_Glob Glob_proofs Spec_Json Json_proofs Spec_Names Spec_Messages Float_proofs.
Import ListNotations.
Open Scope string_scope.
Local Arguments String.prefix : simpl never.

(** ** Quotes *)
Definition quoted (c : ascii) : string :=
  if Ascii.eqb c " " then "" else if Ascii.eqb c "{" then "{" ++ dqs else if Ascii.eqb c "," then dqs ++ "," ++ dqs
  else if Ascii.eqb c ":" then dqs ++ ":" ++ dqs else if Ascii.eqb c "}" then dqs ++ "}" else String c "".
Lemma add_quotes_cmap s : add_quotes s = cmap quoted s.
Proof.
  unfold add_quotes. rewrite !replace_all_one, !cmap_cmap. apply cmap_ext. intro c. unfold quoted, subst1.
  destruct (Ascii.eqb c " ") eqn:E1; [reflexivity|]. cbn [cmap]. rewrite ?append_nil_r.
  destruct (Ascii.eqb c "{") eqn:E2; [reflexivity|]. cbn [cmap append]. 
  destruct (Ascii.eqb c ",") eqn:E3; [reflexivity|]. cbn [cmap append].
  destruct (Ascii.eqb c ":") eqn:E4; [reflexivity|]. cbn [cmap append].
  destruct (Ascii.eqb c "}") eqn:E5; reflexivity.
Qed.
Lemma spaces_dropped s : cmap quoted s = cmap quoted (without_spaces s).
Proof.
  induction s as [|c s IH]; [reflexivity|]. unfold without_spaces in *. cbn [list_ascii_of_string filter].
  destruct (Ascii.eqb c " ") eqn:E; cbn [negb].
  - cbn [cmap]. unfold quoted at 1. rewrite E. auto.
  - cbn [string_of_list_ascii cmap]. rewrite IH. auto.
Qed.
Lemma quoted_label s : label s -> cmap quoted s = s.
Proof.
  intro H. apply cmap_id. eapply all_chars_impl; [|exact H]. intros c [HC HN]. unfold quoted.
  destruct (Ascii.eqb_spec c " ") as [->|]; [cbn in HC; lia|].
  destruct (Ascii.eqb_spec c "{") as [->|]; [exfalso; apply HN; simpl; tauto|]. destruct (Ascii.eqb_spec c ",") as [->|]; [exfalso; apply HN; simpl; tauto|].
  destruct (Ascii.eqb_spec c ":") as [->|]; [exfalso; apply HN; simpl; tauto|]. destruct (Ascii.eqb_spec c "}") as [->|]; [exfalso; apply HN; simpl; tauto|]. auto.
Qed.
Lemma label_chars s : label s -> chars s s.
Proof.
  induction s as [|c s IH]; [constructor|]. intros [[H HN] HS]. apply cs_plain; auto; [lia| |]; intros ->; apply HN; simpl; tauto.
Qed.

(** the quoted text of items *)
Definition body (items : list string) : string := cmap quoted (String.concat "," items).
Lemma body_one i : body [i] = cmap quoted i.
Proof. reflexivity. Qed.
Lemma body_cons i j l : body (i :: j :: l) = cmap quoted i ++ dqs ++ "," ++ dqs ++ body (j :: l).
Proof. unfold body. rewrite concat_cons, !cmap_app. reflexivity. Qed.
Lemma quoted_braces items : cmap quoted (in_braces items) = "{" ++ dqs ++ body items ++ dqs ++ "}".
Proof. unfold in_braces. rewrite !cmap_app. reflexivity. Qed.

(** ** Labels in the usual form *)
Section WithLib.
Variable L : Lib.

Definition members_of (ls : list (string * string)) : list (string * iface) := map (fun kv => (fst kv, GStr (snd kv))) ls.
Lemma label_item k v : label k -> label v -> cmap quoted (k ++ ":" ++ v) = k ++ dqs ++ ":" ++ dqs ++ v.
Proof. intros Hk Hv. rewrite !cmap_app, (quoted_label k Hk), (quoted_label v Hv). reflexivity. Qed.
Lemma labels_members ls : ls <> [] -> Forall (fun kv => label (fst kv) /\ label (snd kv)) ls ->
  members L (members_of ls) (dqs ++ body (map (fun kv => fst kv ++ ":" ++ snd kv) ls) ++ dqs).
Proof.
  induction ls as [|[k v] ls IH]; [congruence|]. intros _ HF. inversion HF as [|? ? [Hk Hv] HF']; subst. cbn [fst snd] in *.
  assert (HS : spaces "") by exact I. destruct ls as [|[k2 v2] ls].
  - cbn [map fst snd members_of]. rewrite body_one, label_item by auto.
    pose proof (mb_one L k k (GStr v) (dqs ++ v ++ dqs) "" "" "" "" HS HS HS HS (label_chars k Hk) (tx_string L v v (label_chars v Hv))) as H.
    cbn [append] in H. rewrite ?append_nil_r, ?append_assoc in *. exact H.
  - specialize (IH ltac:(discriminate) HF').
    pose proof (mb_cons L k k (GStr v) (dqs ++ v ++ dqs) "" "" "" "" _ _ HS HS HS HS (label_chars k Hk) (tx_string L v v (label_chars v Hv)) IH) as H.
    cbn [map fst snd members_of] in *. rewrite body_cons, label_item by auto.
    cbn [append] in H. rewrite ?append_nil_r, ?append_assoc in *. exact H.
Qed.

Lemma parse_labels_text ls s : ls <> [] -> Forall (fun kv => label (fst kv) /\ label (snd kv)) ls -> without_spaces s = labels_text ls ->
  json_parse L (add_quotes s) = Some (object (members_of ls)).
Proof.
  intros HN HF HS. apply document_parses. rewrite add_quotes_cmap, spaces_dropped, HS. unfold labels_text. rewrite quoted_braces.
  exists "", ("{" ++ (dqs ++ body (map (fun kv => fst kv ++ ":" ++ snd kv) ls) ++ dqs) ++ "}"), "". split; [exact I|]. split; [exact I|].
  split; [apply tx_object, labels_members; auto|]. rewrite append_nil_r, !append_assoc. reflexivity.
Qed.

(** *** Maps *)
Lemma assoc_upsert {A} k (a : A) l x : assoc x (upsert k a l) = if String.eqb x k then Some a else assoc x l.
Proof.
  induction l as [|[k' a'] l IH]; cbn [upsert assoc]; [destruct (String.eqb_spec x k); auto|].
  destruct (String.eqb_spec k k') as [<-|]; cbn [assoc].
  - destruct (String.eqb_spec x k); auto.
  - rewrite IH. destruct (String.eqb_spec x k'); auto. destruct (String.eqb_spec x k); auto. congruence.
Qed.
Definition put_all (m acc : list (string * string)) := fold_left (fun acc kv => upsert (fst kv) (snd kv) acc) m acc.
Lemma put_all_assoc m : forall acc k v, assoc k (put_all m acc) = Some v <-> last_value k m v \/ (~ In k (map fst m) /\ assoc k acc = Some v).
Proof.
  induction m as [|[k0 v0] m IH] using rev_ind; intros acc k v.
  - cbn. split; [intros; right; auto|]. intros [(a & b & E & _)|[_ H]]; auto. destruct a; discriminate.
  - unfold put_all. rewrite fold_left_app. cbn [fold_left fst snd]. rewrite assoc_upsert. fold (put_all m acc). rewrite map_app. cbn [map fst].
    destruct (String.eqb_spec k k0) as [->|HNE].
    + split.
      * intro H. inversion H; subst. left. exists m, []. split; auto.
      * intros [(a & b & E & HB)|[H _]].
        -- destruct b as [|x b] using rev_ind.
           ++ apply app_inj_tail in E. destruct E as [_ E]. congruence.
           ++ rewrite app_comm_cons, app_assoc in E. apply app_inj_tail in E. destruct E as [_ <-]. exfalso. apply HB. rewrite map_app, in_app_iff. simpl. auto.
        -- exfalso. apply H. rewrite in_app_iff. simpl. auto.
    + rewrite IH. split; (intros [(a & b & E & HB)|[H1 H2]]; [left|right]).
      * exists a, (b ++ [(k0, v0)])%list. rewrite E, <- app_assoc. split; auto. rewrite map_app, in_app_iff. simpl. intros [|[|[]]]; congruence.
      * split; auto. rewrite in_app_iff. simpl. intros [|[|[]]]; congruence.
      * destruct b as [|x b] using rev_ind.
        -- apply app_inj_tail in E. destruct E as [_ E]. congruence.
        -- rewrite app_comm_cons, app_assoc in E. apply app_inj_tail in E. destruct E as [-> <-]. exists a, b. split; auto.
           intro HI. apply HB. rewrite map_app, in_app_iff. auto.
      * split; auto. intro HI. apply H1. rewrite in_app_iff. auto.
Qed.
(** putting a map's entries equals putting the list it was made from *)
Lemma upsert_map (f : iface -> string) k a l : map (fun kv => (fst kv, f (snd kv))) (upsert k a l) = upsert k (f a) (map (fun kv => (fst kv, f (snd kv))) l).
Proof. induction l as [|[k' a'] l IH]; cbn [upsert map fst snd]; auto. destruct (String.eqb k k'); cbn [map fst snd]; auto. f_equal. auto. Qed.
Lemma object_map (f : iface -> string) kvs : forall acc,
  map (fun kv => (fst kv, f (snd kv))) (fold_left (fun acc kv => upsert (fst kv) (snd kv) acc) kvs acc) =
  put_all (map (fun kv => (fst kv, f (snd kv))) kvs) (map (fun kv => (fst kv, f (snd kv))) acc).
Proof. induction kvs as [|[k a] kvs IH]; intro acc; cbn [fold_left map put_all fst snd]; auto. rewrite IH, upsert_map. reflexivity. Qed.
Lemma keys_upsert {A} k (a : A) l x : In x (map fst (upsert k a l)) <-> x = k \/ In x (map fst l).
Proof.
  induction l as [|[k' a'] l IH]; cbn [upsert map fst In]; [intuition|].
  destruct (String.eqb_spec k k') as [<-|]; cbn [map fst In]; [intuition|]. rewrite IH. intuition.
Qed.
Lemma nodup_upsert {A} k (a : A) l : NoDup (map fst l) -> NoDup (map fst (upsert k a l)).
Proof.
  induction l as [|[k' a'] l IH]; cbn [upsert map fst]; [repeat constructor; auto|].
  intro H. inversion H; subst. destruct (String.eqb_spec k k') as [<-|]; cbn [map fst]; constructor; auto. rewrite keys_upsert. intros [|]; congruence.
Qed.
Lemma nodup_put m : forall acc, NoDup (map fst acc) -> NoDup (map fst (put_all m acc)).
Proof. induction m as [|[k v] m IH]; intros acc H; cbn [put_all fold_left]; auto. apply IH, nodup_upsert; auto. Qed.
Lemma in_assoc (l : list (string * string)) k v : NoDup (map fst l) -> (assoc k l = Some v <-> In (k, v) l).
Proof.
  induction l as [|[k' v'] l IH]; cbn [assoc map fst In]; [split; [discriminate|contradiction]|].
  intro H. inversion H as [|? ? HN HD]; subst. destruct (String.eqb_spec k k') as [<-|HNE].
  - split; [intro E; inversion E; auto|]. intros [E|HI]; [inversion E; auto|]. exfalso. apply HN. apply (in_map fst) in HI. auto.
  - rewrite IH by auto. split; [auto|]. intros [E|]; auto. congruence.
Qed.
Lemma nodup_last l k v : NoDup (map fst l) -> (last_value k l v <-> In (k, v) l).
Proof.
  intro HD. split; [intros (a & b & -> & _); rewrite in_app_iff; simpl; auto|]. intro HI. apply in_split in HI. destruct HI as (a & b & ->).
  exists a, b. split; auto. rewrite map_app in HD. cbn [map fst] in HD. apply NoDup_remove_2 in HD. rewrite in_app_iff in HD. auto.
Qed.

Lemma put_put m old : labels_now m old (put_all (put_all m []) old).
Proof.
  intros k v. rewrite put_all_assoc. pose proof (nodup_put m [] (NoDup_nil _)) as HD. rewrite (nodup_last _ _ _ HD), <- (in_assoc _ _ _ HD), put_all_assoc.
  assert (HK : In k (map fst (put_all m [])) <-> In k (map fst m)).
  { split; intro H.
    - apply in_map_iff in H. destruct H as ((k' & v') & <- & HI). cbn [fst] in *. apply (in_assoc _ _ _ HD) in HI. apply put_all_assoc in HI.
      destruct HI as [(a & b & -> & _)|[_ HI]]; [|discriminate]. rewrite map_app, in_app_iff. simpl. auto.
    - clear -H. unfold put_all. revert H. induction m as [|[k0 v0] m IH] using rev_ind; [auto|]. rewrite map_app, in_app_iff, fold_left_app. cbn [fold_left].
      rewrite keys_upsert. simpl. intuition. }
  rewrite HK. split; [intros [[|[_ ?]]|]; auto; discriminate|tauto].
Qed.

Lemma labels_read ls s old : ls <> [] -> Forall (fun kv => label (fst kv) /\ label (snd kv)) ls -> without_spaces s = labels_text ls ->
  labels_now ls old (unmarshal_labels L (add_quotes s) old).
Proof.
  intros HN HF HS. unfold unmarshal_labels. rewrite (parse_labels_text ls s HN HF HS). unfold object.
  assert (E : forall m acc, fold_left (fun acc kv => upsert (fst kv) (label_text (snd kv)) acc) m acc = put_all (map (fun kv => (fst kv, label_text (snd kv))) m) acc).
  { induction m as [|[k a] m IH]; intro acc; cbn [fold_left map put_all fst snd]; auto. }
  rewrite E, object_map. unfold members_of. rewrite map_map. cbn [map fst snd label_text].
  replace (map (fun x : string * string => (fst x, snd x)) ls) with ls; [apply put_put|].
  clear. induction ls as [|[] ls IH]; cbn; congruence.
Qed.

(** ** Items that are not of the form key:value *)
Lemma label_str a r : label a -> parse_str (a ++ dqs ++ r) = Some (a, r).
Proof. intro H. apply (parse_chars a a (label_chars a H)). Qed.
Lemma item_cases i : all_chars item_char i -> label i \/ exists a b, i = a ++ ":" ++ b /\ label a /\ all_chars item_char b.
Proof.
  induction i as [|c i IH]; [left; exact I|]. intros [[HC| ->] HI].
  - destruct (IH HI) as [H|(a & b & -> & Ha & Hb)]; [left; split; auto|]. right. exists (String c a), b. repeat split; auto; apply HC.
  - right. exists "", i. repeat split; auto.
Qed.
Lemma occurrences_app c a b : occurrences c (a ++ b) = (occurrences c a + occurrences c b)%nat.
Proof. induction a as [|x a IH]; [reflexivity|]. unfold occurrences in *. cbn [append list_ascii_of_string count_occ]. destruct (ascii_dec x c); rewrite IH; auto. Qed.
Lemma label_no_colon a : label a -> occurrences ":" a = 0%nat.
Proof.
  induction a as [|x a IH]; [reflexivity|]. intros [[_ HN] HA]. unfold occurrences in *. cbn [list_ascii_of_string count_occ].
  destruct (ascii_dec x ":") as [->|]; [exfalso; apply HN; simpl; tauto|auto].
Qed.
Lemma good_item a b : label a -> label b -> occurrences ":" (a ++ ":" ++ b) = 1%nat.
Proof. intros Ha Hb. rewrite (occurrences_app ":" a), (occurrences_app ":" ":"), (label_no_colon a Ha), (label_no_colon b Hb). reflexivity. Qed.
Lemma skip_dq s : skip_ws (dqs ++ s) = dqs ++ s.
Proof. reflexivity. Qed.

Lemma value_string f b r : label b -> parse_value L (S f) (dqs ++ b ++ dqs ++ r) = Some (GStr b, r).
Proof. intro H. rewrite parse_value_S, skip_dq. change (dqs ++ b ++ dqs ++ r) with (String dq (b ++ dqs ++ r)). cbv iota beta. rewrite (label_str b r H). reflexivity. Qed.

Lemma bad_members items : Forall (all_chars item_char) items -> Exists (fun i => occurrences ":" i <> 1%nat) items ->
  forall f acc r, parse_members L f acc (dqs ++ body items ++ dqs ++ "}" ++ r) = None.
Proof.
  induction items as [|i items IH]; intros HF HE; [inversion HE|]. inversion HF as [|? ? Hi HF']; subst. intros f acc r. destruct f as [|f]; [reflexivity|].
  rewrite parse_members_S, skip_dq. change (starts_with dq (dqs ++ ?x)) with (Some x). cbv iota beta.
  assert (HB : exists z, body (i :: items) ++ dqs ++ "}" ++ r = cmap quoted i ++ dqs ++ z /\ (z = "}" ++ r /\ items = [] \/ (items <> [] /\ z = "," ++ dqs ++ body items ++ dqs ++ "}" ++ r))).
  { destruct items as [|j l]; [exists ("}" ++ r); split; auto|]. rewrite body_cons. eexists. rewrite !append_assoc. split; [reflexivity|]. right. split; [discriminate|reflexivity]. }
  destruct HB as (z & EB & HZ). rewrite EB. destruct (item_cases i Hi) as [Hl|(a & b & -> & Ha & Hb)].
  - rewrite (quoted_label i Hl), (label_str i z Hl). destruct HZ as [[-> _]|[_ ->]]; reflexivity.
  - rewrite !cmap_app, (quoted_label a Ha). change (cmap quoted ":") with (dqs ++ ":" ++ dqs). rewrite !append_assoc, (label_str a _ Ha).
    change (starts_with ":" (skip_ws (":" ++ ?x))) with (Some x). cbv iota beta. destruct f as [|f]; [reflexivity|].
    destruct (item_cases b Hb) as [Hl|(b1 & b2 & -> & H1 & H2)].
    + rewrite (quoted_label b Hl), (value_string f b z Hl). destruct HZ as [[-> ->]|[HN ->]].
      * exfalso. inversion HE as [? ? HE'|? ? HE']; subst; [|inversion HE']. apply HE'. apply good_item; auto.
      * cbv iota beta. change (skip_ws ("," ++ ?x)) with (String "," x). cbv iota beta. change (Ascii.eqb "," "}") with false. change (Ascii.eqb "," ",") with true. cbv iota.
        apply IH; auto. inversion HE as [? ? HE'|? ? HE']; subst; auto. exfalso. apply HE'. apply good_item; auto.
    + rewrite !cmap_app, (quoted_label b1 H1). change (cmap quoted ":") with (dqs ++ ":" ++ dqs). rewrite !append_assoc, (value_string f b1 _ H1). reflexivity.
Qed.
Lemma bad_labels items s old : Forall (all_chars item_char) items -> Exists (fun i => occurrences ":" i <> 1%nat) items -> without_spaces s = in_braces items ->
  unmarshal_labels L (add_quotes s) old = old.
Proof.
  intros HF HE HS. unfold unmarshal_labels. rewrite add_quotes_cmap, spaces_dropped, HS, quoted_braces. unfold json_parse.
  replace (2 * String.length ("{" ++ dqs ++ body items ++ dqs ++ "}") + 2)%nat with (S (2 * String.length ("{" ++ dqs ++ body items ++ dqs ++ "}") + 1)) by lia.
  set (f := (2 * _ + 1)%nat). rewrite parse_value_S. change (skip_ws ("{" ++ dqs ++ body items ++ dqs ++ "}")) with (String "{" (dqs ++ body items ++ dqs ++ "}")). cbv iota beta.
  change (Ascii.eqb "{" "{") with true. cbv iota. rewrite skip_dq. change (starts_with "}" (dqs ++ body items ++ dqs ++ "}")) with (@None string). cbv iota.
  pose proof (bad_members items HF HE f [] "") as H. rewrite append_nil_r in H. rewrite H. reflexivity.
Qed.

Lemma plain_labels t s old : label t -> without_spaces s = t -> unmarshal_labels L (add_quotes s) old = if String.eqb t "null" then [] else old.
Proof.
  intros HT HS. unfold unmarshal_labels. rewrite add_quotes_cmap, spaces_dropped, HS, (quoted_label t HT).
  assert (HW : forall w r u, t = r ++ w ++ u -> spaces w -> w = "").
  { intros w r u E Hw. destruct w as [|c w]; [reflexivity|]. exfalso. rewrite E in HT. apply all_chars_app in HT. destruct HT as [_ HT]. apply all_chars_app in HT. destruct HT as [[[HC _] _] _].
    destruct Hw as [Hw _]. unfold space_char in Hw. simpl in Hw. lia. }
  assert (HB : forall r u, t <> r ++ "{" ++ u).
  { intros r u E. rewrite E in HT. apply all_chars_app in HT. destruct HT as [_ [[_ HC] _]]. apply HC. simpl. tauto. }
  destruct (json_parse L t) as [v|] eqn:E.
  - apply parse_iff in E. destruct E as (w1 & x & w2 & H1 & H2 & HX & E).
    pose proof (HW w1 "" (x ++ w2) E H1) as ->. assert (w2 = "") as ->. { apply (HW w2 x ""); [|auto]. rewrite append_nil_r. exact E. }
    cbn [append] in E. rewrite append_nil_r in E. subst x.
    destruct HX; cbn [String.eqb]; try reflexivity.
    all: try (exfalso; now apply (HB "" _ eq_refl)).
    all: try (unfold object; exfalso; now apply (HB "" _ eq_refl)).
    destruct (String.eqb_spec s0 "null") as [->|]; [|reflexivity]. exfalso.
      destruct H as (sg & i & f1 & e & Hsg & ((Hd & Hi) & _) & _ & _ & E). destruct i as [|c i]; [contradiction|]. destruct Hi as [Hi _].
      destruct Hsg as [<-|[<-|[]]]; cbn [append] in E; [|discriminate E].
      assert (c = "n"%char) as -> by congruence. unfold digit_char in Hi. vm_compute in Hi. lia.
  - destruct (String.eqb_spec t "null") as [->|]; [|reflexivity]. exfalso.
    assert (HJ : json_parse L "null" = Some GNil). { apply parse_iff. exists "", "null", "". repeat split; try exact I. constructor. }
    congruence.
Qed.

(** ** Time of day *)
Definition seconds_of (n : Z) : f64 := fst (fst (day_times n)).
Definition minutes_of (n : Z) : f64 := snd (fst (day_times n)).
Definition hours_of (n : Z) : f64 := snd (day_times n).
Lemma constants : exists m1 e1 m2 e2, f64_of_Z 1000000000 = SpecFloat.S754_finite false m1 e1 /\ f64_of_Z 60 = SpecFloat.S754_finite false m2 e2.
Proof. do 4 eexists. split; vm_compute; reflexivity. Qed.
Lemma times_mono a b : (0 <= a <= b)%Z ->
  (proper (seconds_of a) /\ proper (minutes_of a) /\ proper (hours_of a)) /\
  fleb (seconds_of a) (seconds_of b) = true /\ fleb (minutes_of a) (minutes_of b) = true /\ fleb (hours_of a) (hours_of b) = true.
Proof.
  intro H. unfold seconds_of, minutes_of, hours_of, day_times. destruct constants as (m1 & e1 & m2 & e2 & E1 & E2). rewrite E1, E2. cbv zeta. cbn [fst snd].
  destruct (of_Z_mono a b H) as [P0 L0]. destruct (of_Z_mono b b ltac:(lia)) as [Q0 M0].
  destruct (fdiv_mono _ _ m1 e1 P0 Q0 L0) as [P1 L1]. destruct (fdiv_mono _ _ m1 e1 Q0 Q0 M0) as [Q1 M1].
  destruct (fdiv_mono _ _ m2 e2 P1 Q1 L1) as [P2 L2]. destruct (fdiv_mono _ _ m2 e2 Q1 Q1 M1) as [Q2 M2].
  destruct (fdiv_mono _ _ m2 e2 P2 Q2 L2) as [P3 L3]. auto.
Qed.


Local Open Scope Z_scope.
Lemma within_bounds x n b : 0 <= n < 2 ^ 52 -> 0 <= b <= 900 -> at_least x n 0 -> at_most x ((n + 1) * 2 ^ b - 1) b -> within x n.
Proof.
  intros Hn Hb [F1 V1] [_ V2]. destruct (of_Z_exact n ltac:(lia)) as [Fn Vn]. destruct (of_Z_exact (n + 1) ltac:(lia)) as [Fm Vm]. split.
  - apply val_le; auto. rewrite Vn. rewrite Z.sub_0_r in V1. auto.
  - apply val_lt; auto. rewrite Vm. pose proof (pow_pos (1074 - b) ltac:(lia)).
    assert (Q : 2 ^ 1074 = 2 ^ b * 2 ^ (1074 - b)) by (rewrite <- pow_split by lia; f_equal; lia). rewrite Q. nia.
Qed.
Lemma clock_within h mi s ns : clock_reading (h, mi, s, ns) -> let n := day_nanoseconds h mi s ns in
  within (seconds_of n) (3600 * h + 60 * mi + s) /\ within (minutes_of n) (60 * h + mi) /\ within (hours_of n) h.
Proof.
  intros (Hh & Hm & Hs & Hn). cbv zeta. unfold day_nanoseconds. set (n := ((h * 60 + mi) * 60 + s) * 1000000000 + ns).
  set (S := 3600 * h + 60 * mi + s). set (M := 60 * h + mi).
  assert (HnS : S * 1000000000 <= n < S * 1000000000 + 1000000000) by (unfold n, S; lia).
  unfold seconds_of, minutes_of, hours_of, day_times. cbv zeta. cbn [fst snd].
  destruct (of_Z_exact n ltac:(lia)) as [F V].
  assert (U0 : at_most (f64_of_Z n) n 0) by (split; [auto|rewrite Z.sub_0_r; lia]).
  assert (L0 : at_least (f64_of_Z n) n 0) by (split; [auto|rewrite Z.sub_0_r; lia]).
  set (x1 := fdiv (f64_of_Z n) (f64_of_Z 1000000000)).
  assert (U1 : at_most x1 ((S + 1) * 2 ^ 30 - 1) 30).
  { apply div_bounds with (a := n) (b := 0); auto; change (2 ^ 30) with 1073741824; lia. }
  assert (L1 : at_least x1 S 0).
  { apply div_bounds_low with (a := n) (b := 0); auto; try lia; apply U1. }
  set (x2 := fdiv x1 (f64_of_Z 60)).
  assert (U2 : at_most x2 ((M + 1) * 2 ^ 36 - 1) 36).
  { apply div_bounds with (a := (S + 1) * 2 ^ 30 - 1) (b := 30); auto; change (2 ^ 30) with 1073741824; change (2 ^ 36) with 68719476736; lia. }
  assert (L2 : at_least x2 M 0).
  { apply div_bounds_low with (a := S) (b := 0); auto; try lia; apply U2. }
  set (x3 := fdiv x2 (f64_of_Z 60)).
  assert (U3 : at_most x3 ((h + 1) * 2 ^ 42 - 1) 42).
  { apply div_bounds with (a := (M + 1) * 2 ^ 36 - 1) (b := 36); auto; change (2 ^ 42) with 4398046511104; change (2 ^ 36) with 68719476736; lia. }
  assert (L3 : at_least x3 h 0).
  { apply div_bounds_low with (a := M) (b := 0); auto; try lia; apply U3. }
  split; [|split]; eapply within_bounds; eauto; lia.
Qed.
Lemma earlier_nanoseconds h mi s ns h' mi' s' ns' : clock_reading (h, mi, s, ns) -> clock_reading (h', mi', s', ns') -> earlier (h, mi, s, ns) (h', mi', s', ns') ->
  0 <= day_nanoseconds h mi s ns <= day_nanoseconds h' mi' s' ns'.
Proof. unfold clock_reading, earlier, day_nanoseconds. lia. Qed.
Lemma whole_clock h mi s : clock_reading (h, mi, s, 0) -> let n := day_nanoseconds h mi s 0 in
  feqb (seconds_of n) (f64_of_Z (3600 * h + 60 * mi + s)) = true /\
  (s = 0 -> feqb (minutes_of n) (f64_of_Z (60 * h + mi)) = true) /\ (s = 0 -> mi = 0 -> feqb (hours_of n) (f64_of_Z h) = true).
Proof.
  intros (Hh & Hm & Hs & _). cbv zeta. unfold day_nanoseconds. set (n := ((h * 60 + mi) * 60 + s) * 1000000000 + 0).
  set (S := 3600 * h + 60 * mi + s). set (M := 60 * h + mi).
  assert (HnS : n = S * 1000000000) by (unfold n, S; lia).
  unfold seconds_of, minutes_of, hours_of, day_times. cbv zeta. cbn [fst snd].
  assert (HE : forall x a, 0 <= a < 2 ^ 53 -> at_most x a 0 -> at_least x a 0 -> feqb x (f64_of_Z a) = true).
  { intros x a Ha [Fx Ux] [_ Lx]. destruct (of_Z_exact a Ha) as [Fa Va]. rewrite Z.sub_0_r in *.
    assert (A : fleb x (f64_of_Z a) = true) by (apply val_le; auto; lia).
    assert (B : fltb x (f64_of_Z a) <> true) by (rewrite val_lt by auto; lia).
    revert A B. unfold feqb, SpecFloat.SFeqb, fleb, SpecFloat.SFleb, fltb, SpecFloat.SFltb. destruct (SpecFloat.SFcompare x (f64_of_Z a)) as [[]|]; congruence. }
  destruct (of_Z_exact n ltac:(lia)) as [F V].
  assert (U0 : at_most (f64_of_Z n) n 0) by (split; [auto|rewrite Z.sub_0_r; lia]).
  assert (L0 : at_least (f64_of_Z n) n 0) by (split; [auto|rewrite Z.sub_0_r; lia]).
  set (x1 := fdiv (f64_of_Z n) (f64_of_Z 1000000000)).
  assert (U1 : at_most x1 S 0) by (apply div_bounds with (a := n) (b := 0); auto; lia).
  assert (L1 : at_least x1 S 0) by (apply div_bounds_low with (a := n) (b := 0); auto; try lia; apply U1).
  split; [apply HE; auto; lia|]. set (x2 := fdiv x1 (f64_of_Z 60)).
  assert (X2 : s = 0 -> at_most x2 M 0 /\ at_least x2 M 0).
  { intro. assert (U2 : at_most x2 M 0) by (apply div_bounds with (a := S) (b := 0); auto; lia). split; auto.
    apply div_bounds_low with (a := S) (b := 0); auto; try lia; apply U2. }
  split; [intro H; destruct (X2 H); apply HE; auto; lia|]. intros H H1. destruct (X2 H) as [U2 L2]. set (x3 := fdiv x2 (f64_of_Z 60)).
  assert (U3 : at_most x3 h 0) by (apply div_bounds with (a := M) (b := 0); auto; lia).
  apply HE; auto; [lia|]. apply div_bounds_low with (a := M) (b := 0); auto; try lia. apply U3.
Qed.
Close Scope Z_scope.

(** ** Messages *)
Lemma time_info m : match add_time_info L m with
  | Ok m' => exists c, parse_time L (m_time m) = Some c /\ same_given m m' /\ same_context m m' /\ same_ips m m' /\ same_labels m m' /\
      let '(h, mi, s, ns) := c in let n := day_nanoseconds h mi s ns in m_t_sec m' = seconds_of n /\ m_t_min m' = minutes_of n /\ m_t_hours m' = hours_of n
  | Err => parse_time L (m_time m) = None
  | Panic => False
  end.
Proof.
  unfold add_time_info. destruct (parse_time L (m_time m)) as [[[[h mi] s] ns]|] eqn:E; auto. eexists. split; [reflexivity|].
  destruct m; repeat split; reflexivity.
Qed.
Lemma resource_type m : context_type (m_protocol m) (m_context_type (add_resource_type m)).
Proof.
  unfold context_type. cbn [add_resource_type set_derived m_context_type]. unfold is_any. cbn [existsb].
  destruct (String.eqb_spec (m_protocol m) "HTTP") as [->|]; [left; simpl; tauto|]. destruct (String.eqb_spec (m_protocol m) "http") as [->|]; [left; simpl; tauto|].
  destruct (String.eqb_spec (m_protocol m) "TCP") as [->|]; [left; simpl; tauto|]. destruct (String.eqb_spec (m_protocol m) "tcp") as [->|]; [left; simpl; tauto|].
  right. split; auto. simpl. intuition.
Qed.
Lemma resource_type_same m : let m' := add_resource_type m in same_given m m' /\ same_times m m' /\ same_ips m m' /\ same_labels m m'.
Proof. destruct m. repeat split. Qed.
Lemma resource_type_twice m : add_resource_type (add_resource_type m) = add_resource_type m.
Proof. reflexivity. Qed.
Lemma context_type_fun p t t' : context_type p t -> context_type p t' -> t = t'.
Proof.
  intros [H|[H ->]] [H'|[H' ->]]; auto.
  - simpl in H, H'. intuition congruence.
  - exfalso. apply H'. apply (in_map fst) in H. auto.
  - exfalso. apply H. apply (in_map fst) in H'. auto.
Qed.

(** all steps *)
Definition completed (m m' : message) : Prop :=
  same_given m m' /\ context_type (m_protocol m) (m_context_type m') /\
  (exists t, add_time_info L m = Ok t /\ same_times t m') /\
  m_source_netip m' = net_ip L (m_source_ip m) /\ m_dest_netip m' = net_ip L (m_dest_ip m) /\
  m_source_labels m' = unmarshal_labels L (add_quotes (m_source_labels_json m)) (m_source_labels m) /\
  m_dest_labels m' = unmarshal_labels L (add_quotes (m_dest_labels_json m)) (m_dest_labels m).
Lemma complete_one m : match add_time_info L (add_resource_type m) with
  | Ok t => completed m (parse_labels L (add_net_ip L t))
  | Err => parse_time L (m_time m) = None
  | Panic => False
  end.
Proof.
  pose proof (time_info (add_resource_type m)) as H. unfold add_time_info in *. change (m_time (add_resource_type m)) with (m_time m) in *.
  destruct (parse_time L (m_time m)) as [[[[h mi] s] ns]|] eqn:E; auto. unfold completed. unfold add_time_info. rewrite E.
  pose proof (resource_type m) as HT. destruct m. split; [repeat split|]. split; [exact HT|]. split; [eexists; split; [reflexivity|repeat split]|]. repeat split.
Qed.
Lemma complete_all ms : match complete_messages L ms with
  | Ok ms' => Forall2 completed ms ms'
  | Err => Exists (fun m => parse_time L (m_time m) = None) ms
  | Panic => False
  end.
Proof.
  unfold complete_messages. induction ms as [|m ms IH]; cbn [map rmapM rbind]; [constructor|]. pose proof (complete_one m) as H1.
  destruct (add_time_info L (add_resource_type m)) as [t| |]; cbn [rbind]; auto.
  destruct (rmapM (add_time_info L) (map add_resource_type ms)) as [ts| |]; cbn [rbind map] in *; auto.
Qed.
Lemma completed_time m m' : completed m m' -> parse_time L (m_time m) <> None.
Proof. intros (_ & _ & (t & H & _) & _). pose proof (time_info m) as HT. rewrite H in HT. destruct HT as (c & -> & _). discriminate. Qed.
End WithLib.

(** the order with whole numbers *)
Lemma within_whole x n k : finite x -> within x n -> (0 <= n < 2 ^ 52 -> 0 <= k < 2 ^ 52 -> (fleb (f64_of_Z k) x = true <-> k <= n) /\ (fltb x (f64_of_Z k) = true <-> n < k))%Z.
Proof.
  intros Fx [H1 H2] Hn Hk. destruct (of_Z_exact n ltac:(lia)) as [Fn Vn]. destruct (of_Z_exact (n + 1) ltac:(lia)) as [Fm Vm]. destruct (of_Z_exact k ltac:(lia)) as [Fk Vk].
  apply val_le in H1; auto. apply val_lt in H2; auto. rewrite val_le, val_lt by auto. rewrite Vn, Vm, Vk in *. pose proof (pow_pos 1074 ltac:(lia)). split; nia.
Qed.
Lemma hours_finite h mi s ns : clock_reading (h, mi, s, ns) -> finite (hours_of (day_nanoseconds h mi s ns)).
Proof.
  intro H. destruct (clock_within h mi s ns H) as (_ & _ & _ & HL). destruct (times_mono (day_nanoseconds h mi s ns) (day_nanoseconds h mi s ns)) as [(_ & _ & HP) _].
  { destruct H as (? & ? & ? & ?). unfold day_nanoseconds. lia. }
  destruct (hours_of (day_nanoseconds h mi s ns)) as [[]|[]| |[] m e]; auto. exfalso.
  destruct H as (Hh & _). destruct (of_Z_exact (h + 1) ltac:(lia)) as [F _]. destruct (f64_of_Z (h + 1)) as [[]|[]| |[] ? ?]; try destruct F; discriminate HL.
Qed.
