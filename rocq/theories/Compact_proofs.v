(** Compaction does not change what a JSON text stands for. *)
From Coq Require Import List String Ascii Bool Arith ZArith Lia.
From Verif Require Import Base GoStr GoFloat Types Json StrUtils GoStr_facts Parse Marshal JsonDoc Spec_Tree Spec_Glob Spec_Json Json_proofs Print_proofs.
Import ListNotations.
Open Scope string_scope.
Local Arguments String.prefix : simpl never.

Definition closed (s : string) : Prop := forall r, compact false (s ++ r) = compact false s ++ compact false r.
Lemma closed_app a b : closed a -> closed b -> closed (a ++ b).
Proof. intros HA HB r. rewrite !append_assoc. rewrite HA, HB, (HA b), append_assoc. reflexivity. Qed.
Lemma compact_app a b : closed a -> compact false (a ++ b) = compact false a ++ compact false b.
Proof. intro H. apply H. Qed.
Lemma spaces_gone w : spaces w -> forall r, compact false (w ++ r) = compact false r.
Proof.
  induction w as [|c w IH]; intros H r; [reflexivity|]. destruct H as [H1 H2]. cbn. apply is_ws_iff in H1. rewrite H1. auto.
Qed.

Lemma escaped_char c : In c ["<"; ">"; "&"]%char -> exists h, json_escape_char c = String bslash (String "u" h) /\ forall b r, compact b (json_escape_char c ++ r) = if b then json_escape_char c ++ compact true r else compact b (json_escape_char c ++ r).
Proof. intros [<-|[<-|[<-|[]]]]; eexists; (split; [reflexivity|]); intros [] r; reflexivity. Qed.
Lemma html_iff c : existsb (Ascii.eqb c) ["<"; ">"; "&"]%char = true <-> In c ["<"; ">"; "&"]%char.
Proof. rewrite existsb_exists. split; [intros (d & H & E); apply Ascii.eqb_eq in E; subst; auto|]. intro H. exists c. rewrite Ascii.eqb_refl. auto. Qed.
(** inside of a string, up to its end *)
Lemma compact_true_S c s : compact true (String c s) =
  if Ascii.eqb c dq then String c (compact false s)
  else if Ascii.eqb c bslash then match s with EmptyString => String c "" | String d s'' => String c (String d (compact true s'')) end
  else (if existsb (Ascii.eqb c) ["<"; ">"; "&"]%char then json_escape_char c else String c "") ++ compact true s.
Proof. reflexivity. Qed.
Lemma hex_plain c n : hex c n -> c <> dq /\ c <> bslash /\ ~ In c ["<"; ">"; "&"]%char.
Proof.
  unfold hex. intro H. cbn in H. repeat (destruct H as [E|H]; [injection E as <- _; cbn; intuition discriminate|]). destruct H.
Qed.
Lemma plain_kept c s : c <> dq -> c <> bslash -> ~ In c ["<"; ">"; "&"]%char -> compact true (String c s) = String c (compact true s).
Proof.
  intros H1 H2 H3. rewrite compact_true_S. apply Ascii.eqb_neq in H1, H2. rewrite H1, H2. destruct (existsb _ _) eqn:E; [apply html_iff in E; contradiction|reflexivity].
Qed.
Lemma unit_kept n t : unit_text n t -> forall s, compact true (t ++ s) = t ++ compact true s.
Proof.
  intros (h1 & h2 & h3 & h4 & a & b & c & d & HA & HB & HC & HD & _ & ->) s.
  apply hex_plain in HA, HB, HC, HD. destruct HA as (?&?&?), HB as (?&?&?), HC as (?&?&?), HD as (?&?&?).
  cbn [append]. rewrite compact_true_S. change (Ascii.eqb bslash dq) with false. change (Ascii.eqb bslash bslash) with true. cbv iota. rewrite !plain_kept by auto. reflexivity.
Qed.
Lemma low_unit_next n t s k : unit_text n t -> low_follows (t ++ s) -> low_follows (t ++ k).
Proof.
  intros HU HF. pose proof HU as (h1 & h2 & h3 & h4 & a & b & c & d & HA & HB & HC & HD & EN & ->).
  destruct HF as (m & t' & r & HM & HT & E). pose proof HT as (g1 & g2 & g3 & g4 & a' & b' & c' & d' & HA' & HB' & HC' & HD' & EM & ->).
  cbn [append] in E. injection E as E1 E2 E3 E4 E. subst g1 g2 g3 g4.
  exists m, (String bslash (String "u" (String h1 (String h2 (String h3 (String h4 "")))))), k. auto.
Qed.
Lemma low_escaped c s : low_follows (json_escape_char c ++ s) -> In c ["<"; ">"; "&"]%char -> False.
Proof.
  intros (m & t & r & HM & HT & E) HI. destruct HT as (g1 & g2 & g3 & g4 & a & b & c' & d & H1 & H2 & H3 & H4 & -> & ->).
  apply low_digits in HM; try (eapply hex_bound; eassumption). destruct HM as [-> _].
  assert (E1 : exists q, json_escape_char c ++ s = String bslash (String "u" (String "0" q))) by (cbn in HI; destruct HI as [<-|[<-|[<-|[]]]]; eexists; reflexivity).
  destruct E1 as [q Q]. rewrite Q in E. injection E as <- _. apply hex_iff in H1. discriminate H1.
Qed.
Lemma low_starts s : low_follows s -> exists q, s = String bslash (String "u" q).
Proof. intros (m & t & r & _ & (g1 & g2 & g3 & g4 & a & b & c & d & _ & _ & _ & _ & _ & ->) & ->). eexists. reflexivity. Qed.
Lemma chars_compact' x k : chars x k -> exists k', chars x k' /\ (low_follows k' -> low_follows k) /\
  forall r, compact true (k ++ String dq r) = k' ++ String dq (compact false r) /\ compact true (k' ++ String dq r) = k' ++ String dq (compact false r).
Proof.
  induction 1 as [|c x s H1 H2 H3 HC (k' & IC & IL & IR)|e c x s HE HC (k' & IC & IL & IR)|n t x s HU N1 N2 HC (k' & IC & IL & IR)
    |n m t t' x s HU HU' N1 N2 HC (k' & IC & IL & IR)|n t x s HU HN HC (k' & IC & IL & IR)].
  - exists "". split; [constructor|]. split; [auto|]. intro r. split; reflexivity.
  - destruct (existsb (Ascii.eqb c) ["<"; ">"; "&"]%char) eqn:E.
    + pose proof E as E'. apply html_iff in E'. exists (json_escape_char c ++ k'). split; [apply escape_char_chars; auto|].
      split; [intro HF; destruct (low_escaped _ _ HF E')|]. intro r. destruct (IR r) as [R1 R2]. split.
      * change (String c s ++ String dq r) with (String c (s ++ String dq r)). rewrite compact_true_S. apply Ascii.eqb_neq in H2, H3. rewrite H2, H3, E, R1, append_assoc. reflexivity.
      * rewrite append_assoc. destruct (escaped_char c E') as (h & _ & HX). rewrite (HX true). rewrite R2, append_assoc. reflexivity.
    + assert (NE : ~ In c ["<"; ">"; "&"]%char) by (rewrite <- html_iff, E; discriminate).
      exists (String c k'). split; [constructor; auto|]. split; [intro HF; apply low_starts in HF; destruct HF as [q HF]; congruence|].
      intro r. destruct (IR r) as [R1 R2]. cbn [append]. rewrite !plain_kept by auto. rewrite R1, R2. auto.
  - exists (String bslash (String e k')). split; [apply cs_escape; auto|]. split.
    { intro HF. apply low_starts in HF. destruct HF as [q HF]. injection HF as -> _. cbn in HE. intuition discriminate. }
    intro r. destruct (IR r) as [R1 R2]. cbn [append]. rewrite !compact_true_S. change (Ascii.eqb bslash dq) with false. cbn [Ascii.eqb].
    change (Ascii.eqb bslash bslash) with true. cbv iota. rewrite R1, R2. auto.
  - exists (t ++ k'). split; [apply cs_unicode; auto|]. split; [apply low_unit_next with (1 := HU)|].
    intro r. destruct (IR r) as [R1 R2]. rewrite !append_assoc, !(unit_kept _ _ HU), R1, R2. auto.
  - exists (t ++ t' ++ k'). split; [apply cs_pair; auto|]. split; [apply low_unit_next with (1 := HU)|].
    intro r. destruct (IR r) as [R1 R2]. rewrite !append_assoc, !(unit_kept _ _ HU), !(unit_kept _ _ HU'), R1, R2. auto.
  - exists (t ++ k'). split; [apply (cs_lone n); auto; tauto|]. split; [apply low_unit_next with (1 := HU)|].
    intro r. destruct (IR r) as [R1 R2]. rewrite !append_assoc, !(unit_kept _ _ HU), R1, R2. auto.
Qed.
Lemma chars_compact x k : chars x k -> exists k', chars x k' /\ forall r, compact true (k ++ String dq r) = k' ++ String dq (compact false r) /\ compact true (k' ++ String dq r) = k' ++ String dq (compact false r).
Proof. intro H. destruct (chars_compact' x k H) as (k' & H1 & _ & H2). eauto. Qed.
Lemma number_solid s : number_text s -> forall r, compact false (s ++ r) = s ++ compact false r.
Proof.
  assert (HX : forall s, all_chars (fun c => is_json_ws c = false /\ c <> dq) s -> forall r, compact false (s ++ r) = s ++ compact false r).
  { clear. induction s as [|c s IH]; intros H r; [reflexivity|]. destruct H as [[H1 H2] H3]. cbn. rewrite H1. apply Ascii.eqb_neq in H2. rewrite H2. f_equal. auto. }
  assert (HA : forall P (a b : string), all_chars P a -> all_chars P b -> all_chars P (a ++ b)).
  { clear. induction a as [|c a IH]; cbn; intros b H1 H2; auto. destruct H1. split; auto. }
  assert (HD : forall d, digits d -> all_chars (fun c => is_json_ws c = false /\ c <> dq) d).
  { intros d [_ H]. induction d as [|c d IH]; cbn in *; auto. destruct H as [H1 H2]. split; auto. unfold digit_char in H1. split.
    - apply not_true_iff_false. rewrite is_ws_iff. unfold space_char. cbn. lia.
    - intros ->. vm_compute in H1. lia. }
  intros (sg & i & f & e & HS & HI & HF & HE & ->). apply HX. repeat apply HA.
  - destruct HS as [<-|[<-|[]]]; repeat split; discriminate.
  - destruct HI as [HI _]. auto.
  - destruct HF as [->|(d & HF & ->)]; [exact I|]. cbn. repeat split; [discriminate|auto].
  - destruct HE as [->|(x & sg' & d & HX' & HS' & HF' & ->)]; [exact I|]. repeat apply HA; auto.
    + destruct HX' as [<-|[<-|[]]]; repeat split; discriminate.
    + destruct HS' as [<-|[<-|[<-|[]]]]; repeat split; discriminate.
Qed.

Section WithLib.
Variable L : Lib.
Definition compacts (s s' : string) : Prop := forall r, compact false (s ++ r) = s' ++ compact false r /\ compact false (s' ++ r) = s' ++ compact false r.
Lemma quoted_compacts x k : chars x k -> exists k', chars x k' /\ compacts (dqs ++ k ++ dqs) (dqs ++ k' ++ dqs).
Proof.
  intro H. destruct (chars_compact x k H) as (k' & HC & HR). exists k'. split; auto. intro r. destruct (HR r) as [R1 R2].
  assert (G : forall z, compact false ((dqs ++ z ++ dqs) ++ r) = String dq (compact true (z ++ String dq r))).
  { intro z. unfold dqs. cbn [append]. rewrite append_assoc. reflexivity. }
  rewrite !G, R1, R2. unfold dqs. cbn [append]. rewrite append_assoc. auto.
Qed.
Lemma compacts_char c : is_json_ws c = false -> c <> dq -> compacts (String c "") (String c "").
Proof. intros H1 H2 r. apply Ascii.eqb_neq in H2. cbn. rewrite H1, H2. auto. Qed.
Lemma compacts_app a a' b b' : compacts a a' -> compacts b b' -> compacts (a ++ b) (a' ++ b').
Proof. intros HA HB r. destruct (HB r) as [B1 B2]. rewrite !append_assoc. split; [rewrite (proj1 (HA _)), B1|rewrite (proj2 (HA _)), B2]; reflexivity. Qed.
Lemma compacts_spaces w b b' : spaces w -> compacts b b' -> compacts (w ++ b) b'.
Proof. intros HW HB r. rewrite append_assoc, (spaces_gone w HW). apply HB. Qed.
Lemma compacts_after w b b' : spaces w -> compacts b b' -> compacts (b ++ w) b'.
Proof. intros HW HB r. rewrite append_assoc. destruct (HB (w ++ r)) as [B1 _]. rewrite B1, (spaces_gone w HW). split; [reflexivity|apply HB]. Qed.
Ltac ch := apply compacts_char; [reflexivity|discriminate].
Lemma text_compacts :
  (forall v s, text L v s -> exists s', text L v s' /\ compacts s s') /\
  (forall vs s, elements L vs s -> exists s', elements L vs s' /\ compacts s s') /\
  (forall kvs s, members L kvs s -> exists s', members L kvs s' /\ compacts s s').
Proof.
  apply json_mind.
  - exists "null". split; [constructor|intro r; split; reflexivity].
  - exists "true". split; [constructor|intro r; split; reflexivity].
  - exists "false". split; [constructor|intro r; split; reflexivity].
  - intros x s H. destruct (quoted_compacts x s H) as (k' & HC & HR). exists (dqs ++ k' ++ dqs). split; [constructor; auto|auto].
  - intros s f HN HP. exists s. split; [econstructor; eauto|]. intro r. split; apply number_solid; auto.
  - intros w HW. exists "[]". split; [apply (tx_empty_array L ""); exact I|]. change "[]" with ("[" ++ "]"). apply compacts_app; [ch|]. apply compacts_spaces; auto. ch.
  - intros vs s H (s' & H' & HR). exists ("[" ++ s' ++ "]"). split; [constructor; auto|]. apply compacts_app; [ch|]. apply compacts_app; [auto|ch].
  - intros w HW. exists "{}". split; [apply (tx_empty_object L ""); exact I|]. change "{}" with ("{" ++ "}"). apply compacts_app; [ch|]. apply compacts_spaces; auto. ch.
  - intros kvs s H (s' & H' & HR). exists ("{" ++ s' ++ "}"). split; [constructor; auto|]. apply compacts_app; [ch|]. apply compacts_app; [auto|ch].
  - intros v s w1 w2 H1 H2 HT (s' & HT' & HR). exists ("" ++ s' ++ ""). split; [apply el_one; try exact I; auto|]. cbn [append]. rewrite append_nil_r.
    apply compacts_spaces; auto. apply compacts_after; auto.
  - intros v s w1 w2 vs z H1 H2 HT (s' & HT' & HR) HE (z' & HE' & HR'). exists ("" ++ s' ++ "" ++ "," ++ z'). split; [apply el_cons; try exact I; auto|]. cbn [append].
    apply compacts_spaces; auto. apply compacts_app; auto. apply compacts_spaces; auto. change (String "," z') with ("," ++ z'); change (String "," z) with ("," ++ z). apply compacts_app; [ch|auto].
  - intros k ks v s w1 w2 w3 w4 H1 H2 H3 H4 HK HT (s' & HT' & HR). destruct (quoted_compacts k ks HK) as (k' & HC & HRk).
    exists ("" ++ (dqs ++ k' ++ dqs) ++ "" ++ ":" ++ "" ++ s' ++ ""). split; [apply mb_one; try exact I; auto|].
    apply compacts_spaces; auto. change ("" ++ (dqs ++ k' ++ dqs) ++ "" ++ ":" ++ "" ++ s' ++ "") with ((dqs ++ k' ++ dqs) ++ ":" ++ s' ++ ""). rewrite append_nil_r.
    apply compacts_app; auto. apply compacts_spaces; auto. apply compacts_app; [ch|]. apply compacts_spaces; auto. apply compacts_after; auto.
  - intros k ks v s w1 w2 w3 w4 kvs z H1 H2 H3 H4 HK HT (s' & HT' & HR) HM (z' & HM' & HR'). destruct (quoted_compacts k ks HK) as (k' & HC & HRk).
    exists ("" ++ (dqs ++ k' ++ dqs) ++ "" ++ ":" ++ "" ++ s' ++ "" ++ "," ++ z'). split; [apply mb_cons; try exact I; auto|].
    apply compacts_spaces; auto. change ("" ++ (dqs ++ k' ++ dqs) ++ "" ++ ":" ++ "" ++ s' ++ "" ++ "," ++ z') with ((dqs ++ k' ++ dqs) ++ ":" ++ s' ++ "," ++ z').
    apply compacts_app; auto. apply compacts_spaces; auto. apply compacts_app; [ch|]. apply compacts_spaces; auto. apply compacts_app; auto. apply compacts_spaces; auto. apply compacts_app; [ch|auto].
Qed.
Lemma compacts_is s s' : compacts s s' -> compact false s = s' /\ closed s /\ compacts s' s'.
Proof.
  intro H. assert (E : compact false s = s'). { destruct (H "") as [H1 _]. rewrite !append_nil_r in H1. exact H1. }
  split; auto. split; [intro r; rewrite E; apply H|]. intro r. destruct (H r) as [_ H2]. auto.
Qed.
Lemma document_compacts v s : document L v s -> text L v (compact false s) /\ closed s /\ compact false (compact false s) = compact false s.
Proof.
  intros (w1 & t & w2 & H1 & H2 & HT & ->). destruct (proj1 text_compacts v t HT) as (s' & HT' & HR).
  assert (HC : compacts (w1 ++ t ++ w2) s') by (apply compacts_spaces; auto; apply compacts_after; auto). destruct (compacts_is _ _ HC) as (E & HE & HS). rewrite E. split; auto. split; auto.
  apply compacts_is in HS. tauto.
Qed.
Theorem compact_value s v : json_parse L s = Some v -> json_parse L (compact false s) = Some v.
Proof. rewrite !parse_iff. intro H. exists "", (compact false s), "". split; [exact I|]. split; [exact I|]. split; [apply document_compacts; auto|]. rewrite append_nil_r. reflexivity. Qed.
Theorem compact_spaces s v : json_parse L s = Some v -> text L v (compact false s).
Proof. rewrite parse_iff. intro H. apply document_compacts. auto. Qed.
End WithLib.
