(** The scanner accepts exactly the texts of the grammar and gives the document. *)
From Coq Require Import List String Ascii Bool Arith ZArith Lia.
From Verif Require Import Base GoStr GoFloat Types Json StrUtils GoStr_facts Spec_Glob JsonDoc Spec_JsonDoc.
From Verif Require Import Spec_Json Json_proofs.
Import ListNotations.
Open Scope string_scope.
Local Arguments String.prefix : simpl never.

Lemma upto_split t r : upto (t ++ r) r = t.
Proof.
  unfold upto. rewrite length_append. replace (String.length t + String.length r - String.length r)%nat with (String.length t) by lia.
  induction t as [|c t IH]; cbn; [destruct r; reflexivity|]. f_equal. exact IH.
Qed.
Lemma upto_is s t r : s = t ++ r -> upto s r = t.
Proof. intros ->. apply upto_split. Qed.
Lemma spelled_raw j s : spelled j s -> raw_of j = s.
Proof. destruct 1; reflexivity. Qed.
Lemma spelled_start j s : spelled j s -> exists c r, s = String c r /\ ~ space_char c /\ c <> "]"%char /\ c <> "}"%char.
Proof.
  unfold space_char. intro H. destruct H as [| | |x s H|s H|w H|vs s H|w H|kvs s H];
    try (eexists; eexists; split; [reflexivity|]; simpl; intuition discriminate).
  apply number_start in H. destruct H as (c & r & -> & HC). exists c, r. split; auto. unfold digit_char in HC. simpl.
  destruct HC as [->|HC]; [simpl; intuition (try discriminate; try lia)|]. repeat split; try (intro; subst; vm_compute in HC; lia). intuition lia.
Qed.
Lemma spelled_solid j s : spelled j s -> solid s.
Proof. intro H. apply spelled_start in H. destruct H as (c & r & E & H & _). exists c, r. auto. Qed.

Lemma read_value_S f s : read_value (S f) s =
    match skip_ws s with
    | EmptyString => None
    | String c s' =>
      if Ascii.eqb c "{" then
        match starts_with "}" (skip_ws s') with
        | Some r => Some (JObj (upto (String c s') r) [], r)
        | None => match read_members f s' with Some (m, r) => Some (JObj (upto (String c s') r) m, r) | None => None end
        end
      else if Ascii.eqb c "[" then
        match starts_with "]" (skip_ws s') with
        | Some r => Some (JArr (upto (String c s') r) [], r)
        | None => match read_elems f s' with Some (l, r) => Some (JArr (upto (String c s') r) l, r) | None => None end
        end
      else if Ascii.eqb c dq then match parse_str s' with Some (x, r) => Some (JStr (upto (String c s') r) x, r) | None => None end
      else if has_prefix (String c s') "true" then Some (JBool true, drop 4 (String c s'))
      else if has_prefix (String c s') "false" then Some (JBool false, drop 5 (String c s'))
      else if has_prefix (String c s') "null" then Some (JNull, drop 4 (String c s'))
      else match lex_number (String c s') with Some (t, r) => Some (JNum t, r) | None => None end
    end.
Proof. reflexivity. Qed.
Lemma read_elems_S f s : read_elems (S f) s =
    match read_value f s with
    | None => None
    | Some (v, r) =>
      match skip_ws r with
      | String c r' =>
        if Ascii.eqb c "]" then Some ([v], r')
        else if Ascii.eqb c "," then match read_elems f r' with Some (vs, r'') => Some (v :: vs, r'') | None => None end
        else None
      | EmptyString => None
      end
    end.
Proof. reflexivity. Qed.
Lemma read_members_S f s : read_members (S f) s =
    match starts_with dq (skip_ws s) with
    | None => None
    | Some s1 =>
      match parse_str s1 with
      | None => None
      | Some (k, s2) =>
        match starts_with ":" (skip_ws s2) with
        | None => None
        | Some s3 =>
          match read_value f s3 with
          | None => None
          | Some (v, r) =>
            match skip_ws r with
            | String c r' =>
              if Ascii.eqb c "}" then Some ([(k, v)], r')
              else if Ascii.eqb c "," then match read_members f r' with Some (m, r'') => Some ((k, v) :: m, r'') | None => None end
              else None
            | EmptyString => None
            end
          end
        end
      end
    end.
Proof. reflexivity. Qed.
Lemma read_spaces f w s : spaces w -> read_value f (w ++ s) = read_value f s.
Proof. intro HW. destruct f; [auto|]. rewrite read_value_S. rewrite (skip_spaces w s HW). auto. Qed.
Lemma read_number f s r : number_text s -> stop r -> read_value (S f) (s ++ r) = Some (JNum s, r).
Proof.
  intros HN HR. pose proof (number_start s HN) as (c & y & E & HC).
  assert (HS : solid s).
  { exists c, y. split; auto. unfold space_char. unfold digit_char in HC. destruct HC as [->|HC]; simpl; intuition (try discriminate; try lia). }
  rewrite read_value_S. rewrite (skip_solid s r HS). rewrite E. simpl append. cbv iota.
  assert (H1 : Ascii.eqb c "{" = false) by (apply Ascii.eqb_neq; intros ->; destruct HC as [HC|HC]; [discriminate|vm_compute in HC; lia]).
  assert (H2 : Ascii.eqb c "[" = false) by (apply Ascii.eqb_neq; intros ->; destruct HC as [HC|HC]; [discriminate|vm_compute in HC; lia]).
  assert (H3 : Ascii.eqb c dq = false) by (apply Ascii.eqb_neq; intros ->; destruct HC as [HC|HC]; [discriminate|vm_compute in HC; lia]).
  rewrite H1, H2, H3.
  assert (HW : forall d w, d <> "-"%char -> ~ digit_char d -> has_prefix (String c (y ++ r)) (String d w) = false).
  { intros d w D1 D2. destruct (has_prefix _ _) eqn:EP; auto. apply has_prefix_iff in EP. destruct EP as [z EZ]. injection EZ; intros; subst.
    destruct HC; congruence. }
  rewrite !HW by (try discriminate; intros [HA HB]; vm_compute in HA, HB; lia).
  change (String c (y ++ r)) with (String c y ++ r). rewrite <- E. rewrite (lex_number_text s r HN HR). auto.
Qed.

Lemma read_all :
  (forall v s, spelled v s -> forall f r, (2 * String.length s <= f)%nat -> stop r -> read_value f (s ++ r) = Some (v, r)) /\
  (forall vs s, items vs s -> forall f r, (2 * String.length s + 1 <= f)%nat -> read_elems f (s ++ String "]" r) = Some (vs, r)) /\
  (forall kvs s, entries kvs s -> forall f r, (2 * String.length s + 1 <= f)%nat ->
     read_members f (s ++ String "}" r) = Some (kvs, r)).
Proof.
  apply spelled_all.
  - intros f r HL _. destruct f; [simpl in HL; lia|]. destruct r; reflexivity.
  - intros f r HL _. destruct f; [simpl in HL; lia|]. destruct r; reflexivity.
  - intros f r HL _. destruct f; [simpl in HL; lia|]. destruct r; reflexivity.
  - intros x s HC f r HL _. destruct f; [simpl in HL; lia|]. change (dqs ++ s ++ dqs) with (String dq (s ++ dqs)).
    simpl append. rewrite read_value_S. change (skip_ws (String dq ((s ++ dqs) ++ r))) with (String dq ((s ++ dqs) ++ r)). cbv iota.
    change (Ascii.eqb dq "{") with false. change (Ascii.eqb dq "[") with false. rewrite Ascii.eqb_refl. cbv iota.
    rewrite append_assoc. change (dqs ++ r) with (String dq r). rewrite (parse_chars x s HC). rewrite (upto_is _ (dqs ++ s ++ dqs) r); [reflexivity|]. rewrite !append_assoc. reflexivity.
  - intros s HN f r HL HR. destruct f; [|apply read_number; auto].
    apply number_start in HN. destruct HN as (c & y & -> & _). simpl in HL. lia.
  - intros w HW f r HL _. destruct f; [simpl in HL; lia|]. change (("[" ++ w ++ "]") ++ r) with (String "[" ((w ++ "]") ++ r)).
    rewrite read_value_S. change (skip_ws (String "[" ((w ++ "]") ++ r))) with (String "[" ((w ++ "]") ++ r)). cbv iota.
    change (Ascii.eqb "[" "{") with false. change (Ascii.eqb "[" "[") with true. cbv iota.
    rewrite append_assoc, (skip_spaces w _ HW). change (skip_ws ("]" ++ r)) with (String "]" r). cbn [starts_with]. rewrite Ascii.eqb_refl.
    rewrite (upto_is _ ("[" ++ w ++ "]") r); [reflexivity|]. rewrite !append_assoc. reflexivity.
  - intros vs s HE IH f r HL _. destruct f; [simpl in HL; lia|]. change (("[" ++ s ++ "]") ++ r) with (String "[" ((s ++ "]") ++ r)).
    rewrite read_value_S. change (skip_ws (String "[" ((s ++ "]") ++ r))) with (String "[" ((s ++ "]") ++ r)). cbv iota.
    change (Ascii.eqb "[" "{") with false. change (Ascii.eqb "[" "[") with true. cbv iota.
    rewrite append_assoc. change ("]" ++ r) with (String "]" r).
    assert (HN : starts_with "]" (skip_ws (s ++ String "]" r)) = None).
    { assert (HX : exists v t w z, spaces w /\ spelled v t /\ s = w ++ t ++ z) by (destruct HE; repeat eexists; eauto).
      destruct HX as (v & t & w & z & HW & HT & ->). rewrite !append_assoc. rewrite (skip_spaces w _ HW), (skip_solid t _ (spelled_solid _ _ HT)).
      apply spelled_start in HT. destruct HT as (c & y & -> & _ & H1 & _). cbn [append starts_with]. apply not_eq_sym, Ascii.eqb_neq in H1. rewrite H1. auto. }
    rewrite HN. rewrite IH by (simpl in HL; rewrite length_append in HL; simpl in HL; lia).
    rewrite (upto_is _ ("[" ++ s ++ "]") r); [reflexivity|]. rewrite !append_assoc. reflexivity.
  - intros w HW f r HL _. destruct f; [simpl in HL; lia|]. change (("{" ++ w ++ "}") ++ r) with (String "{" ((w ++ "}") ++ r)).
    rewrite read_value_S. change (skip_ws (String "{" ((w ++ "}") ++ r))) with (String "{" ((w ++ "}") ++ r)). cbv iota.
    change (Ascii.eqb "{" "{") with true. cbv iota.
    rewrite append_assoc, (skip_spaces w _ HW). change (skip_ws ("}" ++ r)) with (String "}" r). cbn [starts_with]. rewrite Ascii.eqb_refl.
    rewrite (upto_is _ ("{" ++ w ++ "}") r); [reflexivity|]. rewrite !append_assoc. reflexivity.
  - intros kvs s HM IH f r HL _. destruct f; [simpl in HL; lia|]. change (("{" ++ s ++ "}") ++ r) with (String "{" ((s ++ "}") ++ r)).
    rewrite read_value_S. change (skip_ws (String "{" ((s ++ "}") ++ r))) with (String "{" ((s ++ "}") ++ r)). cbv iota.
    change (Ascii.eqb "{" "{") with true. cbv iota.
    rewrite append_assoc. change ("}" ++ r) with (String "}" r).
    assert (HN : starts_with "}" (skip_ws (s ++ String "}" r)) = None).
    { assert (HX : exists w z, spaces w /\ s = w ++ String dq z).
      { destruct HM as [k ks v s w1 w2 w3 w4 H1|k ks v s w1 w2 w3 w4 kvs s' H1]; exists w1; eexists; (split; [exact H1|reflexivity]). }
      destruct HX as (w & z & HW & ->). rewrite !append_assoc. rewrite (skip_spaces w _ HW). reflexivity. }
    rewrite HN. rewrite IH by (simpl in HL; rewrite length_append in HL; simpl in HL; lia).
    rewrite (upto_is _ ("{" ++ s ++ "}") r); [reflexivity|]. rewrite !append_assoc. reflexivity.
  - intros v s w1 w2 HW1 HW2 HT IH f r HL. destruct f; [simpl in HL; lia|]. rewrite !length_append in HL.
    rewrite read_elems_S. rewrite !append_assoc. rewrite (read_spaces f w1 _ HW1).
    rewrite IH; [|lia|apply stop_spaces; auto; apply stop_sep; simpl; auto].
    rewrite (skip_spaces w2 _ HW2), skip_sep by (simpl; auto). reflexivity.
  - intros v s w1 w2 vs s' HW1 HW2 HT IH HE IHE f r HL. destruct f; [simpl in HL; lia|]. rewrite !length_append in HL. simpl in HL.
    rewrite read_elems_S. rewrite !append_assoc. rewrite (read_spaces f w1 _ HW1).
    change ("," ++ s' ++ String "]" r) with (String "," (s' ++ String "]" r)).
    rewrite IH; [|lia|apply stop_spaces; auto; apply stop_sep; simpl; auto].
    rewrite (skip_spaces w2 _ HW2), skip_sep by (simpl; auto).
    change (Ascii.eqb "," "]") with false. change (Ascii.eqb "," ",") with true. cbv iota. rewrite IHE; [auto|lia].
  - intros k ks v s w1 w2 w3 w4 HW1 HW2 HW3 HW4 HK HT IH f r HL. destruct f; [simpl in HL; lia|].
    rewrite !length_append in HL. simpl in HL. rewrite read_members_S. rewrite !append_assoc.
    rewrite (skip_spaces w1 _ HW1). 
    match goal with |- context [dqs ++ ks ++ dqs ++ ?a] => change (dqs ++ ks ++ dqs ++ a) with (String dq (ks ++ String dq a)) end.
    rewrite skip_sep by (simpl; auto 10). cbn [starts_with]. rewrite Ascii.eqb_refl. rewrite (parse_chars k ks HK).
    rewrite (skip_spaces w2 _ HW2).
    match goal with |- context [":" ++ ?a] => change (":" ++ a) with (String ":" a) end.
    rewrite skip_sep by (simpl; auto 10). cbn [starts_with]. rewrite Ascii.eqb_refl. rewrite (read_spaces f w3 _ HW3).
    rewrite IH; [|lia|apply stop_spaces; auto; apply stop_sep; simpl; auto].
    rewrite (skip_spaces w4 _ HW4), skip_sep by (simpl; auto). reflexivity.
  - intros k ks v s w1 w2 w3 w4 kvs s' HW1 HW2 HW3 HW4 HK HT IH HM IHM f r HL. destruct f; [simpl in HL; lia|].
    rewrite !length_append in HL. simpl in HL. rewrite read_members_S. rewrite !append_assoc.
    rewrite (skip_spaces w1 _ HW1).
    match goal with |- context [dqs ++ ks ++ dqs ++ ?a] => change (dqs ++ ks ++ dqs ++ a) with (String dq (ks ++ String dq a)) end.
    rewrite skip_sep by (simpl; auto 10). cbn [starts_with]. rewrite Ascii.eqb_refl. rewrite (parse_chars k ks HK).
    rewrite (skip_spaces w2 _ HW2).
    match goal with |- context [":" ++ ?a] => change (":" ++ a) with (String ":" a) end.
    rewrite skip_sep by (simpl; auto 10). cbn [starts_with]. rewrite Ascii.eqb_refl. rewrite (read_spaces f w3 _ HW3).
    change ("," ++ s' ++ String "}" r) with (String "," (s' ++ String "}" r)).
    rewrite IH; [|lia|apply stop_spaces; auto; apply stop_sep; simpl; auto].
    rewrite (skip_spaces w4 _ HW4), skip_sep by (simpl; auto).
    change (Ascii.eqb "," "}") with false. change (Ascii.eqb "," ",") with true. cbv iota. rewrite IHM; [auto|lia].
Qed.

Lemma document_reads v s : is_document v s -> json_read s = Some v.
Proof.
  intros (w1 & t & w2 & H1 & H2 & HT & ->). unfold json_read. rewrite (read_spaces _ w1 _ H1).
  rewrite (proj1 read_all v t HT); [|rewrite !length_append; lia|].
  - replace w2 with (w2 ++ "") by apply append_nil_r. rewrite (skip_spaces w2 "" H2). auto.
  - replace w2 with (w2 ++ "") by apply append_nil_r. apply stop_spaces; simpl; auto.
Qed.

Lemma read_only f :
  (forall s v r, read_value f s = Some (v, r) -> exists w t, spaces w /\ spelled v t /\ s = w ++ t ++ r) /\
  (forall s vs r, read_elems f s = Some (vs, r) -> exists t, items vs t /\ s = t ++ String "]" r) /\
  (forall s kvs r, read_members f s = Some (kvs, r) -> exists t, entries kvs t /\ s = t ++ String "}" r).
Proof.
  induction f as [|f (IHV & IHE & IHM)]; [repeat split; intros; discriminate|]. split; [|split].
  - intros s v r H. rewrite read_value_S in H. destruct (skip_split s) as (w & HW & ES). exists w.
    destruct (skip_ws s) as [|c s'] eqn:EK; [discriminate|]. rewrite ES. clear ES EK s.
    cut (exists t, spelled v t /\ String c s' = t ++ r).
    { intros (t & HT & E). exists t. rewrite E. auto. }
    destruct (Ascii.eqb c "{") eqn:E1; [apply Ascii.eqb_eq in E1; subst c|destruct (Ascii.eqb c "[") eqn:E2; [apply Ascii.eqb_eq in E2; subst c|
      destruct (Ascii.eqb c dq) eqn:E3; [apply Ascii.eqb_eq in E3; subst c|]]].
    + destruct (starts_with "}" (skip_ws s')) as [r'|] eqn:ES.
      * apply starts_with_iff in ES. injection H; intros; subst. destruct (skip_split s') as (w2 & HW2 & E). rewrite ES in E. subst s'.
        exists ("{" ++ w2 ++ "}"). assert (EX : String "{" (w2 ++ String "}" r) = ("{" ++ w2 ++ "}") ++ r) by (rewrite !append_assoc; reflexivity).
        rewrite (upto_is _ _ _ EX). split; [constructor; auto|exact EX].
      * destruct (read_members f s') as [[m r']|] eqn:EM; [|discriminate]. injection H; intros; subst. apply IHM in EM. destruct EM as (t & HM & ->).
        exists ("{" ++ t ++ "}"). assert (EX : String "{" (t ++ String "}" r) = ("{" ++ t ++ "}") ++ r) by (rewrite !append_assoc; reflexivity).
        rewrite (upto_is _ _ _ EX). split; [constructor; auto|exact EX].
    + destruct (starts_with "]" (skip_ws s')) as [r'|] eqn:ES.
      * apply starts_with_iff in ES. injection H; intros; subst. destruct (skip_split s') as (w2 & HW2 & E). rewrite ES in E. subst s'.
        exists ("[" ++ w2 ++ "]"). assert (EX : String "[" (w2 ++ String "]" r) = ("[" ++ w2 ++ "]") ++ r) by (rewrite !append_assoc; reflexivity).
        rewrite (upto_is _ _ _ EX). split; [constructor; auto|exact EX].
      * destruct (read_elems f s') as [[m r']|] eqn:EM; [|discriminate]. injection H; intros; subst. apply IHE in EM. destruct EM as (t & HM & ->).
        exists ("[" ++ t ++ "]"). assert (EX : String "[" (t ++ String "]" r) = ("[" ++ t ++ "]") ++ r) by (rewrite !append_assoc; reflexivity).
        rewrite (upto_is _ _ _ EX). split; [constructor; auto|exact EX].
    + destruct (parse_str s') as [[x r']|] eqn:EP; [|discriminate]. injection H; intros; subst.
      destruct (chars_parse _ s' x r (le_n _) EP) as (t & HT & ->). exists (dqs ++ t ++ dqs).
      assert (EX : String dq (t ++ String dq r) = (dqs ++ t ++ dqs) ++ r) by (rewrite !append_assoc; reflexivity).
      rewrite (upto_is _ _ _ EX). split; [constructor; auto|exact EX].
    + destruct (has_prefix (String c s') "true") eqn:P1.
      { apply has_prefix_iff in P1. destruct P1 as [z E]. rewrite E in *. injection H; intros; subst. exists "true". split; [constructor|].
        reflexivity. }
      destruct (has_prefix (String c s') "false") eqn:P2.
      { apply has_prefix_iff in P2. destruct P2 as [z E]. rewrite E in *. injection H; intros; subst. exists "false". split; [constructor|].
        reflexivity. }
      destruct (has_prefix (String c s') "null") eqn:P3.
      { apply has_prefix_iff in P3. destruct P3 as [z E]. rewrite E in *. injection H; intros; subst. exists "null". split; [constructor|].
        reflexivity. }
      destruct (lex_number (String c s')) as [[t r']|] eqn:EN; [|discriminate].
      injection H; intros; subst. apply lex_number_only in EN. destruct EN as [HN E]. exists t. split; [constructor; auto|exact E].
  - intros s x r H. rewrite read_elems_S in H. destruct (read_value f s) as [[v r1]|] eqn:EV; [|discriminate].
    apply IHV in EV. destruct EV as (w & t & HW & HT & ->). destruct (skip_split r1) as (w2 & HW2 & E2).
    destruct (skip_ws r1) as [|c r2]; [discriminate|]. subst r1. destruct (Ascii.eqb c "]") eqn:E1.
    + apply Ascii.eqb_eq in E1. subst c. injection H; intros; subst. exists (w ++ t ++ w2). split; [constructor; auto|].
      rewrite !append_assoc. reflexivity.
    + destruct (Ascii.eqb c ",") eqn:E2; [|discriminate]. apply Ascii.eqb_eq in E2. subst c.
      destruct (read_elems f r2) as [[y r3]|] eqn:EE; [|discriminate]. apply IHE in EE. destruct EE as (t2 & HE & ->).
      injection H; intros; subst. exists (w ++ t ++ w2 ++ "," ++ t2). split; [constructor; auto|].
      rewrite !append_assoc. reflexivity.
  - intros s x r H. rewrite read_members_S in H. destruct (skip_split s) as (w1 & HW1 & E1).
    destruct (starts_with dq (skip_ws s)) as [s1|] eqn:ES; [|discriminate]. apply starts_with_iff in ES. rewrite ES in E1. clear ES. subst s.
    destruct (parse_str s1) as [[k s2]|] eqn:EP; [|discriminate]. destruct (chars_parse _ s1 k s2 (le_n _) EP) as (ks & HK & ->). clear EP.
    destruct (skip_split s2) as (w2 & HW2 & E2). destruct (starts_with ":" (skip_ws s2)) as [s3|] eqn:ES; [|discriminate].
    apply starts_with_iff in ES. rewrite ES in E2. clear ES. subst s2.
    destruct (read_value f s3) as [[v r1]|] eqn:EV; [|discriminate]. apply IHV in EV. destruct EV as (w3 & t & HW3 & HT & ->).
    destruct (skip_split r1) as (w4 & HW4 & E4). destruct (skip_ws r1) as [|c r2]; [discriminate|]. subst r1.
    destruct (Ascii.eqb c "}") eqn:E1.
    + apply Ascii.eqb_eq in E1. subst c. injection H; intros; subst.
      exists (w1 ++ (dqs ++ ks ++ dqs) ++ w2 ++ ":" ++ w3 ++ t ++ w4). split; [constructor; auto|].
      rewrite !append_assoc. reflexivity.
    + destruct (Ascii.eqb c ",") eqn:E2; [|discriminate]. apply Ascii.eqb_eq in E2. subst c.
      destruct (read_members f r2) as [[y r3]|] eqn:EE; [|discriminate]. apply IHM in EE. destruct EE as (t2 & HM & ->). injection H; intros; subst.
      exists (w1 ++ (dqs ++ ks ++ dqs) ++ w2 ++ ":" ++ w3 ++ t ++ w4 ++ "," ++ t2). split; [constructor; auto|].
      rewrite !append_assoc. reflexivity.
Qed.

Lemma read_iff s v : json_read s = Some v <-> is_document v s.
Proof.
  split; [|apply document_reads]. unfold json_read. intro H.
  destruct (read_value (2 * String.length s + 2) s) as [[v' r]|] eqn:EV; [|discriminate].
  destruct (skip_split r) as (w2 & HW2 & E2). destruct (skip_ws r); [|discriminate]. injection H; intros; subst v'.
  apply (proj1 (read_only _)) in EV. destruct EV as (w & t & HW & HT & ->). rewrite append_nil_r in E2. subst r.
  exists w, t, w2. auto.
Qed.
