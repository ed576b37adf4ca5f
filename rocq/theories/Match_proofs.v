(** Proofs about sender, receiver, operation and resource matching. *)
From Coq Require Import List String Ascii Bool Arith ZArith Lia.
From Verif Require Import Base GoStr GoStr_facts GoFloat Types Json StrUtils Validate Prepare Parse Marshal
  Lifecycle Eval Check Tree_proofs Tree_truth Spec_Decision Spec_Match Check_proofs.
Import ListNotations.
Open Scope string_scope.

(** ** Case-insensitive equality *)
Definition all_ascii : list ascii := map ascii_of_nat (seq 0 256).
Lemma all_ascii_in c : In c all_ascii.
Proof.
  unfold all_ascii. apply in_map_iff. exists (nat_of_ascii c). split; [apply ascii_nat_embedding|].
  apply in_seq. pose proof (nat_ascii_bounded c). lia.
Qed.

Definition case_pairb (c d : ascii) : bool :=
  let n := nat_of_ascii c in ((65 <=? n) && (n <=? 90) && (nat_of_ascii d =? n + 32))%nat.
Lemma case_pairb_iff c d : case_pairb c d = true <-> case_pair c d.
Proof.
  unfold case_pairb, case_pair. rewrite !andb_true_iff, !Nat.leb_le, Nat.eqb_eq. tauto.
Qed.

Lemma lower_char_table : forallb (fun c => forallb (fun d =>
  Bool.eqb (Ascii.eqb (lower_char c) (lower_char d)) (Ascii.eqb c d || case_pairb c d || case_pairb d c))
  all_ascii) all_ascii = true.
Proof. vm_compute. reflexivity. Qed.

Lemma lower_char_same c d : lower_char c = lower_char d <-> same_letter c d.
Proof.
  pose proof lower_char_table as T. rewrite forallb_forall in T. specialize (T c (all_ascii_in c)).
  rewrite forallb_forall in T. specialize (T d (all_ascii_in d)). apply eqb_prop in T.
  unfold same_letter. rewrite <- !case_pairb_iff, <- !Ascii.eqb_eq, T, !orb_true_iff. tauto.
Qed.

Lemma lower_iff a : forall b, to_lower a = to_lower b <-> same_ignoring_case a b.
Proof.
  unfold to_lower. induction a as [|c a IH]; intros [|d b]; simpl.
  - split; [constructor|auto].
  - split; [discriminate|]. intro H; inversion H.
  - split; [discriminate|]. intro H; inversion H.
  - split.
    + intro H. injection H as H1 H2. constructor; [apply lower_char_same; auto|apply IH; auto].
    + intro H; inversion H; subst. f_equal; [apply lower_char_same; auto|apply IH; auto].
Qed.

(** *** Case folding *)
Lemma fold_plain c s : c <> "197"%char -> c <> "226"%char -> fold_join c s = String (lower_char c) s.
Proof.
  intros H1 H2. unfold fold_join. apply Ascii.eqb_neq in H1, H2. rewrite H1, H2. destruct s as [|d [|e s]]; reflexivity.
Qed.
Lemma fold_join_cases c s :
  (c = "197"%char /\ exists s', s = String "191" s' /\ fold_join c s = String "s" s') \/
  (c = "226"%char /\ exists s', s = String "132" (String "170" s') /\ fold_join c s = String "k" s') \/
  fold_join c s = String (lower_char c) s.
Proof.
  destruct (Ascii.eqb_spec c "197") as [->|N1].
  - destruct s as [|d s]; [auto|]. destruct (Ascii.eqb_spec d "191") as [->|N]; [left; split; [reflexivity|exists s; split; reflexivity]|].
    right. right. cbn. apply Ascii.eqb_neq in N. rewrite N. destruct s; reflexivity.
  - destruct (Ascii.eqb_spec c "226") as [->|N2]; [|right; right; apply fold_plain; auto].
    destruct s as [|d [|e s]]; auto. destruct (Ascii.eqb_spec d "132") as [->|N]; [destruct (Ascii.eqb_spec e "170") as [->|N]|].
    + right. left. split; [reflexivity|]. exists s. split; reflexivity.
    + right. right. cbn. apply Ascii.eqb_neq in N. rewrite N. reflexivity.
    + right. right. cbn. apply Ascii.eqb_neq in N. rewrite N. reflexivity.
Qed.
Lemma fold_raw h : In h ["191"; "132"; "170"]%char -> forall s u, fold_text s = String h u -> exists s', s = String h s' /\ fold_text s' = u.
Proof.
  intros HI [|c s] u E; [discriminate|]. cbn [fold_text] in E. destruct (fold_join_cases c (fold_text s)) as [(_ & s' & _ & EJ)|[(_ & s' & _ & EJ)|EJ]]; rewrite EJ in E.
  - injection E as <- _. cbn in HI. intuition discriminate.
  - injection E as <- _. cbn in HI. intuition discriminate.
  - injection E as EC EU. exists s. split; [|exact EU]. f_equal. clear - HI EC. cbn in HI.
    destruct HI as [<-|[<-|[<-|[]]]]; destruct c as [[] [] [] [] [] [] [] []]; try discriminate EC; reflexivity.
Qed.
Lemma fold_sign g x s : In g spellings -> In x g -> exists l, In (String l "") g /\ fold_text (x ++ s) = String l (fold_text s) /\ In (l, g) [("k"%char, hd [] spellings); ("s"%char, hd [] (tl spellings))].
Proof.
  intros [<-|[<-|[]]] HX.
  - exists "k"%char. split; [cbn; auto|]. split; [|cbn; auto]. destruct HX as [<-|[<-|[<-|[]]]].
    + cbn [append fold_text]. rewrite fold_plain by discriminate. reflexivity.
    + cbn [append fold_text]. rewrite fold_plain by discriminate. reflexivity.
    + change (fold_text (String "226" (String "132" (String "170" s))) = String "k" (fold_text s)). cbn [fold_text].
      rewrite (fold_plain "170") by discriminate. rewrite (fold_plain "132") by discriminate. reflexivity.
  - exists "s"%char. split; [cbn; auto|]. split; [|cbn; auto]. destruct HX as [<-|[<-|[<-|[]]]].
    + cbn [append fold_text]. rewrite fold_plain by discriminate. reflexivity.
    + cbn [append fold_text]. rewrite fold_plain by discriminate. reflexivity.
    + change (fold_text (String "197" (String "191" s)) = String "s" (fold_text s)). cbn [fold_text]. rewrite (fold_plain "191") by discriminate. reflexivity.
Qed.
(** the first character of a text: one of the signs, or a byte of its own *)
Lemma fold_first c s : exists l x r, String c s = x ++ r /\ fold_text (String c s) = String l (fold_text r) /\ (String.length r <= String.length s)%nat /\
  ((exists g, In g spellings /\ In x g /\ In (String l "") g) \/ x = String c "" /\ l = lower_char c /\ r = s).
Proof.
  cbn [fold_text]. destruct (fold_join_cases c (fold_text s)) as [(-> & u & E & EJ)|[(-> & u & E & EJ)|EJ]].
  - apply fold_raw in E; [|cbn; auto]. destruct E as (s' & -> & <-). exists "s"%char, (String "197" (String "191" "")), s'.
    split; [reflexivity|]. split; [exact EJ|]. split; [cbn; lia|]. left. exists (hd [] (tl spellings)). cbn. auto 12.
  - apply fold_raw in E; [|cbn; auto]. destruct E as (s' & -> & E). apply fold_raw in E; [|cbn; auto]. destruct E as (s'' & -> & <-).
    exists "k"%char, (String "226" (String "132" (String "170" ""))), s''.
    split; [reflexivity|]. split; [exact EJ|]. split; [cbn; lia|]. left. exists (hd [] spellings). cbn. auto 12.
  - exists (lower_char c), (String c ""), s. split; [reflexivity|]. split; [exact EJ|]. split; [lia|]. right. auto.
Qed.
Lemma lower_spelling g l c : In g spellings -> In (String l "") g -> lower_char l = l -> lower_char c = l -> In (String c "") g.
Proof.
  intros HG HL E1 E2. destruct HG as [<-|[<-|[]]]; cbn in HL.
  - destruct HL as [E|[E|[E|[]]]]; try discriminate E; injection E as <-; [|discriminate E1].
    destruct c as [[] [] [] [] [] [] [] []]; try discriminate E2; cbn; auto.
  - destruct HL as [E|[E|[E|[]]]]; try discriminate E; injection E as <-; [|discriminate E1].
    destruct c as [[] [] [] [] [] [] [] []]; try discriminate E2; cbn; auto.
Qed.
Lemma folded_iff a b : fold_text a = fold_text b <-> same_folded a b.
Proof.
  split.
  - remember (String.length a) as n eqn:EN. revert a b EN. induction n as [n IH] using (well_founded_induction lt_wf). intros a b EN E.
    destruct a as [|c a], b as [|d b].
    + constructor.
    + destruct (fold_first d b) as (l & x & r & _ & EF & _). rewrite EF in E. discriminate E.
    + destruct (fold_first c a) as (l & x & r & _ & EF & _). rewrite EF in E. discriminate E.
    + destruct (fold_first c a) as (l & x & r & E1 & F1 & LR & H1). destruct (fold_first d b) as (l' & y & q & E2 & F2 & _ & H2).
      rewrite F1, F2 in E. injection E as <- E. rewrite E1, E2.
      assert (HR : same_folded r q) by (apply (IH (String.length r)); [subst n; cbn; lia|reflexivity|exact E]).
      assert (HLOW : forall g, In g spellings -> In (String l "") g -> lower_char l = l \/ lower_char l <> l /\ In l ["K"; "S"]%char).
      { intros g [<-|[<-|[]]] HL; cbn in HL; destruct HL as [EL|[EL|[EL|[]]]]; try discriminate EL; injection EL as <-; (left; reflexivity) || (right; split; [discriminate|cbn; auto]). }
      assert (HID : forall e, lower_char (lower_char e) = lower_char e) by (intros [[] [] [] [] [] [] [] []]; reflexivity).
      destruct H1 as [(g & HG & HX & HL)|(-> & EL & ->)], H2 as [(g' & HG' & HY & HL')|(-> & EL' & ->)].
      * assert (g' = g).
        { destruct HG as [<-|[<-|[]]], HG' as [<-|[<-|[]]]; try reflexivity; exfalso; cbn in HL, HL';
            destruct HL as [EL|[EL|[EL|[]]]]; try discriminate EL; injection EL as <-; intuition discriminate. }
        subst g'. apply (sf_sign g); auto.
      * apply (sf_sign g); auto. apply (lower_spelling g l); auto. subst l. apply HID.
      * apply (sf_sign g'); auto. apply (lower_spelling g' l); auto. subst l. apply HID.
      * cbn [append]. apply sf_letter; auto. apply lower_char_same. congruence.
  - induction 1 as [|c d s t HL HS IH|g x y s t HG HX HY HS IH]; [reflexivity| |].
    + cbn [fold_text]. rewrite IH. destruct HL as [->|HL]; [reflexivity|].
      assert (HP : forall e f, case_pair e f -> e <> "197"%char /\ e <> "226"%char /\ f <> "197"%char /\ f <> "226"%char).
      { intros e f0 [P1 P2]. assert (N1 : nat_of_ascii "197" = 197%nat) by reflexivity. assert (N2 : nat_of_ascii "226" = 226%nat) by reflexivity.
        split; [|split; [|split]]; intros ->; lia. }
      assert (HC : c <> "197"%char /\ c <> "226"%char /\ d <> "197"%char /\ d <> "226"%char) by (destruct HL as [HL|HL]; apply HP in HL; tauto).
      destruct HC as (C1 & C2 & D1 & D2). rewrite !fold_plain by auto. f_equal. apply lower_char_same. right. exact HL.
    + destruct (fold_sign g x s HG HX) as (l & _ & E1 & I1). destruct (fold_sign g y t HG HY) as (l' & _ & E2 & I2). rewrite E1, E2, IH. f_equal.
      cbn in I1, I2. destruct I1 as [I1|[I1|[]]], I2 as [I2|[I2|[]]]; injection I1; injection I2; intros; subst; congruence.
Qed.
Lemma equal_fold_iff a b : equal_fold a b = true <-> same_folded a b.
Proof. unfold equal_fold. rewrite String.eqb_eq. apply folded_iff. Qed.

(** ** Networks *)
Lemma land_agrees mk x y : Z.land x mk = Z.land y mk <-> agrees mk x y.
Proof.
  split.
  - intros E k Hk HM. assert (H : Z.testbit (Z.land x mk) k = Z.testbit (Z.land y mk) k) by congruence.
    rewrite !Z.land_spec, HM, !andb_true_r in H. auto.
  - intro H. apply Z.bits_inj'. intros k Hk. rewrite !Z.land_spec.
    destruct (Z.testbit mk k) eqn:E; [|rewrite !andb_false_r; auto].
    rewrite (H k Hk E). auto.
Qed.

Lemma masked_equal_iff nn : forall m i, List.length m = List.length nn -> List.length i = List.length nn ->
  (masked_equal nn m i = true <-> same_network m nn i).
Proof.
  induction nn as [|x nn IH]; intros [|mk m] [|y i] Hm Hi; try discriminate; simpl.
  - split; auto. constructor.
  - rewrite andb_true_iff, Z.eqb_eq, land_agrees, IH by (simpl in *; lia). split.
    + intros [? ?]. constructor; auto.
    + intro H; inversion H; auto.
Qed.

Lemma same_network_length m n i : same_network m n i -> List.length i = List.length n.
Proof. induction 1; simpl; auto. Qed.

Lemma to4_spec i : (to4 i = i /\ List.length i = 4%nat) \/
  (v4_mapped i (to4 i)) \/ (to4 i = [] /\ List.length i <> 4%nat /\ ~ exists v4, v4_mapped i v4).
Proof.
  unfold to4. destruct (Nat.eqb_spec (List.length i) 4) as [E4|N4]; auto.
  destruct (Nat.eqb_spec (List.length i) 16) as [E16|N16]; simpl.
  - do 16 (destruct i as [|? i]; try discriminate). destruct i; try discriminate. clear.
    cbn [firstn forallb nth skipn].
    destruct (_ && _ && _)%bool eqn:E.
    + right; left. rewrite !andb_true_iff, !Z.eqb_eq in E. split; auto. simpl. intuition congruence.
    + right; right. repeat split; auto; try discriminate. intros [v4 [H HL]]. simpl in H.
      injection H; intros; subst. simpl in E. discriminate.
  - right; right. repeat split; auto. intros [v4 [H HL]]. apply N16. rewrite H.
    rewrite !app_length, repeat_length, HL. auto.
Qed.

Lemma v4_mapped_length i v : v4_mapped i v -> List.length i = 16%nat /\ List.length v = 4%nat.
Proof. intros [-> H]. split; auto. rewrite !app_length, repeat_length, H. auto. Qed.

Lemma canonical_of_contains i : canonical_ip i (if is_nil_ip (to4 i) then i else to4 i).
Proof.
  destruct (to4_spec i) as [[E HL]|[H|(E & HN & HV)]].
  - rewrite E. right. split; [|destruct i; auto].
    intros [v4 H]. apply v4_mapped_length in H. lia.
  - left. destruct (to4 i) eqn:E; auto. destruct H as [_ H]; discriminate.
  - rewrite E. right. auto.
Qed.

Lemma canonical_unique i c c' : canonical_ip i c -> canonical_ip i c' -> c = c'.
Proof.
  intros [H|[N ->]] [H'|[N' ->]]; auto; try (exfalso; eauto; fail).
  destruct H as [-> HL], H' as [E HL']. apply app_inv_head in E. apply app_inv_head in E. auto.
Qed.

Lemma network_number_proper n : proper_network n -> network_number_and_mask n = (n_ip n, n_mask n).
Proof.
  intros [HL HC]. unfold network_number_and_mask.
  assert (E : (if is_nil_ip (to4 (n_ip n)) then n_ip n else to4 (n_ip n)) = n_ip n).
  { destruct (to4_spec (n_ip n)) as [[E H4]|[H|(E & HN & HV)]].
    - rewrite E. destruct (n_ip n); auto.
    - apply v4_mapped_length in H as HH. destruct HC as [HC|[HC HV]]; [lia|]. exfalso; eauto.
    - rewrite E. auto. }
  rewrite E. destruct HC as [HC|[HC _]]; rewrite HL, HC; auto.
Qed.

Theorem ip_contains_iff n i : proper_network n -> (ip_contains n i = true <-> in_network n i).
Proof.
  intro HP. unfold ip_contains. rewrite network_number_proper by auto.
  set (c := if is_nil_ip (to4 i) then i else to4 i).
  pose proof (canonical_of_contains i) as HC. fold c in HC.
  destruct (Nat.eqb_spec (List.length c) (List.length (n_ip n))) as [E|N]; simpl.
  - rewrite masked_equal_iff by (auto; destruct HP; auto). split.
    + intro H. exists c; auto.
    + intros (c' & HC' & H). rewrite (canonical_unique _ _ _ HC HC'); auto.
  - split; [discriminate|]. intros (c' & HC' & H). rewrite (canonical_unique _ _ _ HC HC') in N.
    apply same_network_length in H. contradiction.
Qed.

(** a message without a parsed address is in no network *)
Theorem no_address_no_network n : proper_network n -> ~ in_network n [].
Proof.
  intros HP (c & HC & H). apply same_network_length in H.
  destruct HC as [HC|[_ ->]]; [apply v4_mapped_length in HC; simpl in HC; lia|].
  simpl in H. destruct HP as [_ [HP|[HP _]]]; lia.
Qed.

Section WithLib.
Variable L : Lib.

Lemma match_regex_accepts p s : p <> None ->
  exists b, match_regex L p s = Some b /\ (b = true <-> accepts L p s).
Proof.
  destruct p as [r|]; [|congruence]. intros _. simpl. exists (re_match L r s). split; auto.
  unfold accepts. split; [eauto|]. intros (r' & E & H). congruence.
Qed.

Lemma match_subnet_iff x address addr : (x_is_cidr x = true -> proper_network (x_cidr x)) ->
  (match_subnet L x address addr = true <-> subnet_entry L x address addr).
Proof.
  intro HP. unfold match_subnet, subnet_entry. destruct (x_is_cidr x).
  - rewrite ip_contains_iff by auto. intuition congruence.
  - destruct (x_is_ip x).
    + rewrite String.eqb_eq. intuition congruence.
    + intuition congruence.
Qed.

Lemma test_sender_list_iff ty xs m : Forall (entry_ready L ty) xs ->
  exists b, test_sender_list L xs m = Some b /\ (b = true <-> Exists (fun x => sender_entry L x m) xs).
Proof.
  induction 1 as [|x xs (HT & HR & HN) Hxs IH].
  - exists false. split; auto. split; [discriminate|]. intro H; inversion H.
  - destruct IH as (b & Hb & HB). cbn [test_sender_list test_receiver_list]. rewrite Hb. rewrite HT.
    destruct (String.eqb_spec ty "subnet") as [->|NS].
    + simpl. pose proof (match_subnet_iff x (m_source_ip m) (m_source_netip m) HN) as HM.
      destruct (match_subnet L x (m_source_ip m) (m_source_netip m)).
      * exists true. split; auto. split; auto. intros _. left. left. split; auto. apply HM; auto.
      * exists b. split; auto. rewrite HB. split; [right; auto|]. intro H; inversion H; subst; auto.
        destruct H1 as [[_ H1]|[[E|E] _]]; [apply HM in H1; discriminate|congruence|congruence].
    + destruct (is_any ty ["*"; "workload"]) eqn:EW.
      * apply is_any_iff in EW. simpl in EW.
        destruct (match_regex_accepts (x_regexp x) (m_source_service m) HR) as (b1 & E1 & HB1).
        rewrite E1. destruct b1.
        -- exists true. split; auto. split; auto. intros _. left. right. split; [rewrite HT; intuition congruence|]. apply HB1; auto.
        -- exists b. split; auto. rewrite HB. split; [right; auto|]. intro H; inversion H; subst; auto.
           destruct H1 as [[E _]|[_ H1]]; [congruence|]. apply HB1 in H1. discriminate.
      * apply is_any_false in EW. simpl in EW.
        exists false. split; auto. split; [discriminate|]. intro H. apply Exists_exists in H.
        destruct H as (y & HI & HY). exfalso.
        assert (HTy : x_type y = x_type x).
        { destruct HI as [->|HI]; auto. rewrite Forall_forall in Hxs. destruct (Hxs y HI) as [E _]. congruence. }
        destruct HY as [[E _]|[[E|E] _]]; intuition congruence.
Qed.

Lemma test_receiver_list_iff ty xs m : Forall (entry_ready L ty) xs ->
  exists b, test_receiver_list L xs m = Some b /\ (b = true <-> Exists (fun x => receiver_entry L x m) xs).
Proof.
  induction 1 as [|x xs (HT & HR & HN) Hxs IH].
  - exists false. split; auto. split; [discriminate|]. intro H; inversion H.
  - destruct IH as (b & Hb & HB). cbn [test_sender_list test_receiver_list]. rewrite Hb. rewrite HT.
    destruct (String.eqb_spec ty "subnet") as [->|NS].
    + simpl. pose proof (match_subnet_iff x (m_dest_ip m) (m_dest_netip m) HN) as HM.
      destruct (match_subnet L x (m_dest_ip m) (m_dest_netip m)).
      * exists true. split; auto. split; auto. intros _. left. left. split; auto. apply HM; auto.
      * exists b. split; auto. rewrite HB. split; [right; auto|]. intro H; inversion H; subst; auto.
        destruct H1 as [[_ H1]|[[E _]|[[E|E] _]]]; [apply HM in H1; discriminate|congruence|congruence|congruence].
    + destruct (String.eqb_spec ty "hostname") as [->|NH].
      * destruct (match_regex_accepts (x_regexp x) (m_host m) HR) as (b1 & E1 & HB1).
        rewrite E1. destruct b1.
        -- exists true. split; auto. split; auto. intros _. left. right; left. split; auto. apply HB1; auto.
        -- exists b. split; auto. rewrite HB. split; [right; auto|]. intro H; inversion H; subst; auto.
           destruct H1 as [[E _]|[[_ H1]|[[E|E] _]]]; try congruence. apply HB1 in H1. discriminate.
      * destruct (is_any ty ["*"; "workload"]) eqn:EW.
        -- apply is_any_iff in EW. simpl in EW.
           destruct (match_regex_accepts (x_regexp x) (m_dest_service m) HR) as (b1 & E1 & HB1).
           rewrite E1. destruct b1.
           ++ exists true. split; auto. split; auto. intros _. left. right; right. split; [rewrite HT; intuition congruence|]. apply HB1; auto.
           ++ exists b. split; auto. rewrite HB. split; [right; auto|]. intro H; inversion H; subst; auto.
              destruct H1 as [[E _]|[[E _]|[_ H1]]]; try congruence. apply HB1 in H1. discriminate.
        -- apply is_any_false in EW. simpl in EW.
           exists false. split; auto. split; [discriminate|]. intro H. apply Exists_exists in H.
           destruct H as (y & HI & HY). exfalso.
           assert (HTy : x_type y = x_type x).
           { destruct HI as [->|HI]; auto. rewrite Forall_forall in Hxs. destruct (Hxs y HI) as [E _]. congruence. }
           destruct HY as [[E _]|[[E _]|[[E|E] _]]]; intuition congruence.
Qed.

Lemma test_resource_iff r m : ru_resource_regex r <> None ->
  exists b, test_resource L r m = Some b /\ (b = true <-> resource_matches L r m).
Proof.
  intro HR. unfold test_resource, resource_matches.
  destruct (String.eqb_spec (ru_protocol r) "tcp") as [->|NT].
  - destruct (match_regex_accepts _ (m_dest_port m) HR) as (b & E & HB). exists b. split; auto.
    rewrite HB. intuition congruence.
  - destruct (String.eqb_spec (ru_protocol r) "*") as [->|NS].
    + exists true. intuition auto.
    + destruct (equal_fold (m_protocol m) (ru_protocol r)) eqn:EF; simpl.
      * apply equal_fold_iff in EF.
        destruct (String.eqb_spec (ru_resource_type r) "*") as [ET|NT2]; simpl.
        -- destruct (match_regex_accepts _ (m_path m) HR) as (b & E & HB). exists b. split; auto.
           rewrite HB. intuition congruence.
        -- destruct (String.eqb_spec (m_context_type m) (ru_resource_type r)) as [EC|NC]; simpl.
           ++ destruct (match_regex_accepts _ (m_path m) HR) as (b & E & HB). exists b. split; auto.
              rewrite HB. intuition congruence.
           ++ exists false. split; auto. intuition congruence.
      * exists false. split; auto. split; [discriminate|]. intros [[E _]|[E|(_ & _ & E & _)]]; try congruence.
        apply equal_fold_iff in E. congruence.
Qed.

(** the static part of a prepared rule never panics and is the conjunction of the four tests *)
Theorem static_part_iff r m : ready L r ->
  exists b, static_part L r m = Some b /\
    (b = true <-> sender_matches L r m /\ receiver_matches L r m /\ operation_matches L r m /\ resource_matches L r m).
Proof.
  intros (HS & HR & HO & HRes). unfold static_part, test_sender, test_receiver.
  destruct (test_sender_list_iff _ _ m HS) as (b1 & -> & H1).
  destruct (test_receiver_list_iff _ _ m HR) as (b2 & -> & H2).
  destruct (match_regex_accepts _ (m_method m) HO) as (b3 & -> & H3).
  destruct (test_resource_iff _ m HRes) as (b4 & -> & H4).
  fold (sender_matches L r m) in H1. fold (receiver_matches L r m) in H2. fold (operation_matches L r m) in H3.
  destruct b1; [|exists false; split; auto; intuition congruence].
  destruct b2; [|exists false; split; auto; intuition congruence].
  destruct b3; [|exists false; split; auto; intuition congruence].
  exists b4. split; auto. rewrite H4. intuition congruence.
Qed.

(** the conditions of the rule are satisfied (at iteration phase [t]), with extra data [x] *)
Definition conditions_hold ord (r : rule L) (m : message) (t : nat) (x : extra) : Prop :=
  match ru_tree r with
  | None => x = []
  | Some n => fst (eval L ord n (mkEst m t)) = Some (true, x)
  end.

Theorem rule_result ord r m t d x e : ready L r ->
  check_prepared L ord r (mkEst m t) = (Some (d, x), e) ->
  (d = 0 -> x = []) /\
  (d <> 0 <-> sender_matches L r m /\ receiver_matches L r m /\ operation_matches L r m /\ resource_matches L r m /\
     (exists y, conditions_hold ord r m t y) /\ exists d', decision_word (ru_decision r) d') /\
  (d <> 0 -> decision_word (ru_decision r) d /\ conditions_hold ord r m t x).
Proof.
  intros HR H. rewrite check_prepared_eq in H.
  destruct (static_part_iff r m HR) as (b & Eb & HB). rewrite Eb in H.
  assert (HW : decision_of (ru_decision r) = 0 -> ~ exists d', decision_word (ru_decision r) d').
  { intros E [d' Hd']. assert (d' <> 0) by (destruct Hd' as [[-> _]|[[-> _]|[-> _]]]; discriminate).
    apply decision_of_word in Hd'; auto. congruence. }
  destruct b.
  2:{ injection H; intros; subst. split; [auto|split; [|congruence]]. split; [congruence|]. intuition congruence. }
  destruct HB as [HB _]. specialize (HB eq_refl). unfold conditions_hold.
  destruct (ru_tree r) as [n|].
  - destruct (eval L ord n (mkEst m t)) as [[[[] y]|] e1]; simpl; try discriminate.
    + destruct (Nat.eqb_spec (decision_of (ru_decision r)) 0) as [E|N]; injection H; intros; subst.
      * split; auto. split; [|congruence]. split; [congruence|]. intros (_ & _ & _ & _ & _ & K). exfalso; apply HW; auto.
      * split; [congruence|]. pose proof (proj1 (decision_of_word _ _ N) eq_refl) as HD.
        split; [|auto]. split; [|auto]. intros _. repeat split; try tauto; eauto.
    + injection H; intros; subst. split; auto. split; [|congruence]. split; [congruence|].
      intros (_ & _ & _ & _ & [z K] & _). discriminate.
  - destruct (Nat.eqb_spec (decision_of (ru_decision r)) 0) as [E|N]; injection H; intros; subst.
    + split; auto. split; [|congruence]. split; [congruence|]. intros (_ & _ & _ & _ & _ & K). exfalso; apply HW; auto.
    + split; [congruence|]. pose proof (proj1 (decision_of_word _ _ N) eq_refl) as HD.
      split; [|auto]. split; [|auto]. intros _. repeat split; try tauto; eauto.
Qed.

(** a check of a prepared rule panics only through its conditions *)
Theorem rule_panic ord r m t e : ready L r ->
  check_prepared L ord r (mkEst m t) = (None, e) ->
  exists n, ru_tree r = Some n /\ fst (eval L ord n (mkEst m t)) = None.
Proof.
  intros HR H. rewrite check_prepared_eq in H.
  destruct (static_part_iff r m HR) as (b & Eb & HB). rewrite Eb in H.
  destruct b; [|discriminate]. destruct (ru_tree r) as [n|]; [|discriminate].
  exists n. split; auto. destruct (eval L ord n (mkEst m t)) as [[[[] ?]|] ?]; auto; discriminate.
Qed.

(** ** Preparation makes a rule ready *)
Lemma rbind_ok {A B} (x : res A) (f : A -> res B) b : rbind x f = Ok b -> exists a, x = Ok a /\ f a = Ok b.
Proof. destruct x; simpl; intro H; try discriminate. eauto. Qed.

Lemma rmapM_Forall {A B} (f : A -> res B) (P : B -> Prop) l bs :
  (forall a b, f a = Ok b -> P b) -> rmapM f l = Ok bs -> Forall P bs.
Proof.
  intro HP. revert bs; induction l as [|a l IH]; simpl; intros bs H.
  - injection H; intros; subst; constructor.
  - apply rbind_ok in H. destruct H as (b & Hb & H). apply rbind_ok in H. destruct H as (bs' & Hbs & H).
    injection H; intros; subst. constructor; eauto.
Qed.

Hypothesis HC : CidrSpec L.

Lemma expand_one_ready ty s x : expand_one L ty s = Ok x -> entry_ready L ty x.
Proof.
  unfold expand_one.
  destruct (if String.eqb ty "subnet" then is_ip_cidr L (if String.eqb ty "subnet" && String.eqb s "*" then "0.0.0.0/0" else s)
            else (false, false, [], mkIpnet [] [])) as [[[isip iscidr] i] cidr] eqn:EI.
  destruct (_ && _ && _)%bool; [discriminate|].
  destruct (re_compile L _) as [re|]; [|discriminate].
  intro H; injection H; intros; subst. split; [auto|split; [discriminate|]]. simpl. intros ->.
  destruct (String.eqb ty "subnet"); [|discriminate].
  unfold is_ip_cidr in EI. destruct (parse_cidr L _) as [n|] eqn:EP.
  - injection EI; intros; subst. eapply HC; eauto.
  - destruct (parse_ip L _); discriminate.
Qed.

Theorem prepared_ready p r r' : ru_converted r = false -> prepare_rule L p r = Ok r' -> ready L r'.
Proof.
  intros HV H. unfold prepare_rule in H. apply rbind_ok in H. destruct H as (r1 & H1 & H).
  apply rbind_ok in H. destruct H as (r2 & H2 & H3).
  assert (V1 : ru_converted r1 = false).
  { destruct (ru_tree r); [|injection H1; intros; subst; auto].
    apply rbind_ok in H1. destruct H1 as (n' & _ & H1). injection H1; intros; subst; auto. }
  assert (V2 : ru_converted r2 = false).
  { unfold replace_in_rule in H2. apply rbind_ok in H2. destruct H2 as (? & _ & H2).
    apply rbind_ok in H2. destruct H2 as (? & _ & H2). injection H2; intros; subst; auto. }
  unfold convert_fields in H3. rewrite V2 in H3. apply rbind_ok in H3. destruct H3 as (sl & HS & H3).
  apply rbind_ok in H3. destruct H3 as (rl & HRl & H3).
  destruct (re_compile L (convert_operation _)) as [ore|]; [|discriminate].
  destruct (re_compile L _) as [rre|]; [|discriminate]. injection H3; intros; subst.
  unfold ready; simpl. repeat split; try discriminate.
  - unfold expand in HS. eapply rmapM_Forall; [|exact HS]. intros a b. apply expand_one_ready.
  - unfold expand in HRl. eapply rmapM_Forall; [|exact HRl]. intros a b. apply expand_one_ready.
Qed.

Lemma copy_rule_converted ord r t r' t' : copy_rule L ord r t = (Ok r', t') -> ru_converted r' = ru_converted r.
Proof.
  unfold copy_rule, pbind, pret. destruct (copy_tree L ord (ru_tree r) t) as [[x| |] t1]; intro H; try discriminate.
  injection H; intros; subst; auto.
Qed.

Theorem set_predefined_ready ord p s t u s' t' : ru_converted (rs_rule s) = false -> set_predefined L ord p s t = (Ok u, s', t') ->
  exists r, rs_prepared s' = Some r /\ rs_ready s' = true /\ ready L r.
Proof.
  intro HV. unfold set_predefined. destruct (copy_rule L ord (rs_rule s) t) as [[c| |] t1] eqn:EC; intro H; try discriminate.
  destruct (prepare_rule L p c) as [c'| |] eqn:EP; try discriminate. injection H; intros; subst. simpl.
  apply copy_rule_converted in EC. rewrite HV in EC.
  exists c'. repeat split; auto; eapply prepared_ready in EP; auto; apply EP.
Qed.

End WithLib.
