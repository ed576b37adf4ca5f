(** Proofs about RemoveDotQuotes. *)
From Coq Require Import List String Ascii Bool Arith ZArith Lia.
From Verif Require Import Base GoStr GoStr_facts GoFloat Types StrUtils Spec_Glob Glob_proofs Spec_Quotes.
Import ListNotations.
Open Scope string_scope.

Lemma eqb_no a b : a <> b -> Ascii.eqb a b = false.
Proof. intro. apply Ascii.eqb_neq. auto. Qed.
Lemma no_quote c : ~ quote c -> Ascii.eqb c sq = false /\ Ascii.eqb c dq = false.
Proof. intro H. split; apply eqb_no; intros ->; apply H; [left|right]; auto. Qed.
Lemma dot_no_quote : ~ quote "."%char.
Proof. intros [H|H]; vm_compute in H; discriminate. Qed.

(** ** Without a quote after a dot *)
Lemma plain_same s : forall d, (d = true -> forall q b, quote q -> s <> String q b) -> ~ dot_quote s -> remove_dot_quotes_from d false false s = s.
Proof.
  induction s as [|c s IH]; intros d HD HN; cbn [remove_dot_quotes_from]; auto.
  assert (E : d && Ascii.eqb c sq = false /\ d && Ascii.eqb c dq = false).
  { destruct d; cbn [andb]; auto. apply no_quote. intro HQ. exact (HD eq_refl c s HQ eq_refl). }
  destruct E as [-> ->]. cbn [andb]. f_equal. apply IH.
  - intros HC q b HQ ->. apply Ascii.eqb_eq in HC. subst. apply HN. exists "", q, b. auto.
  - intros (a & q & b & HQ & ->). apply HN. exists (String c a), q, b. auto.
Qed.

(** ** Quoted segments *)
Lemma inside_name d rq rdq name r : all_chars (fun c => ~ quote c) name -> r <> "" -> exists d',
  remove_dot_quotes_from d rq rdq (name ++ r) = name ++ remove_dot_quotes_from d' rq rdq r /\
  (d' = true -> (name = "" /\ d = true) \/ exists a, name = a ++ ".").
Proof.
  intros HA HR. revert d. induction name as [|c name IH]; intro d.
  - exists d. auto.
  - destruct HA as [H1 H2]. cbn [append remove_dot_quotes_from]. destruct (no_quote _ H1) as [-> ->]. rewrite !andb_false_r.
    destruct (IH H2 (Ascii.eqb c ".")) as (d' & -> & HD). exists d'. split; auto. intro HT. right.
    destruct (HD HT) as [[-> HC]|[a ->]].
    + apply Ascii.eqb_eq in HC. subst. exists "". auto.
    + exists (String c a). auto.
Qed.

Theorem segments_unquoted d s s' : unquoted d s s' -> remove_dot_quotes_from d false false s = s'.
Proof.
  induction 1 as [d|d c s s' HQ _ IH|q name s s' HQ [HN HE] _ IH]; auto.
  - cbn [remove_dot_quotes_from].
    assert (E : d && Ascii.eqb c sq = false /\ d && Ascii.eqb c dq = false) by (destruct d; cbn [andb]; auto; apply no_quote; auto).
    destruct E as [-> ->]. cbn [andb]. rewrite IH. auto.
  - destruct HQ as [->| ->].
    + cbn [remove_dot_quotes_from andb]. rewrite Ascii.eqb_refl.
      destruct (inside_name false true false name (String sq s) HN ltac:(discriminate)) as (d' & -> & HD). f_equal.
      destruct d'; [destruct (HD eq_refl) as [[_ ?]|?]; [discriminate|tauto]|]. cbn [remove_dot_quotes_from andb]. rewrite Ascii.eqb_refl. auto.
    + cbn [remove_dot_quotes_from andb]. change (Ascii.eqb dq sq) with false. cbn iota. rewrite Ascii.eqb_refl.
      destruct (inside_name false false true name (String dq s) HN ltac:(discriminate)) as (d' & -> & HD). f_equal.
      destruct d'; [destruct (HD eq_refl) as [[_ ?]|?]; [discriminate|tauto]|]. cbn [remove_dot_quotes_from andb]. rewrite Ascii.eqb_refl. auto.
Qed.

Lemma names_unquoted d s s' : unquoted_names d s s' -> unquoted d s s'.
Proof. induction 1; constructor; auto. Qed.

(** the result of removing has no quote after a dot *)
Lemma dot_quote_cons c s : dot_quote (String c s) <-> (c = "."%char /\ exists q b, quote q /\ s = String q b) \/ dot_quote s.
Proof.
  split.
  - intros (a & q & b & HQ & E). destruct a as [|x a]; simpl in E; injection E as -> E.
    + left. split; auto. exists q, b. auto.
    + right. exists a, q, b. auto.
  - intros [[-> (q & b & HQ & ->)]|(a & q & b & HQ & ->)].
    + exists "", q, b. auto.
    + exists (String c a), q, b. auto.
Qed.
Lemma name_dot_quote name s : all_chars (fun c => ~ quote c) name -> ~ (exists a, name = a ++ ".") -> ~ dot_quote s -> ~ dot_quote (name ++ s).
Proof.
  intros HN HE HS. induction name as [|c name IH]; auto. destruct HN as [H1 H2]. cbn [append]. rewrite dot_quote_cons.
  intros [[-> (q & b & HQ & E)]|H].
  - destruct name as [|x name]; [apply HE; exists ""; auto|]. simpl in E. injection E as -> _. destruct H2. auto.
  - apply IH; auto. intros [a ->]. apply HE. exists (String c a). auto.
Qed.
Lemma names_result d s s' : unquoted_names d s s' -> ~ dot_quote s' /\ (d = true -> forall q b, quote q -> s' <> String q b).
Proof.
  induction 1 as [d|d c s s' HQ _ [IH1 IH2]|q name s s' HQ HE HN _ [IH1 IH2]].
  - split; [|discriminate]. intros (a & q & b & _ & E). destruct a; discriminate.
  - split.
    + rewrite dot_quote_cons. intros [[-> (q & b & Hq & E)]|H]; auto. rewrite Ascii.eqb_refl in IH2. eapply IH2; eauto.
    + intros -> q b Hq E. injection E as -> _. apply HQ; auto.
  - destruct HN as [HN HD]. split; [apply name_dot_quote; auto|].
    intros _ q' b Hq' E. destruct name as [|c name]; [congruence|]. injection E as -> _. destruct HN. auto.
Qed.
Theorem names_idempotent s s' : unquoted_names false s s' -> remove_dot_quotes s' = s'.
Proof. intro H. apply plain_same; [discriminate|]. apply (names_result _ _ _ H). Qed.

(** ** All texts *)
Lemma kept_characters s : forall d rq rdq t, without_quotes s t -> without_quotes (remove_dot_quotes_from d rq rdq s) t.
Proof.
  induction s as [|c s IH]; intros d rq rdq t H; cbn [remove_dot_quotes_from]; auto.
  assert (HQ : forall d rq rdq, quote c -> without_quotes (remove_dot_quotes_from d rq rdq s) t).
  { intros d' rq' rdq' HQ. inversion H; subst; [contradiction|]. auto. }
  destruct (Ascii.eqb_spec c sq) as [->|N1].
  - rewrite !andb_true_r. change (Ascii.eqb sq dq) with false. rewrite !andb_false_r.
    destruct d; [apply HQ; left; auto|]. destruct rq; [apply HQ; left; auto|]. apply wq_drop; [left; auto|]. apply HQ; left; auto.
  - destruct (Ascii.eqb_spec c dq) as [->|N2].
    + rewrite !andb_true_r, !andb_false_r. destruct d; [apply HQ; right; auto|]. destruct rdq; [apply HQ; right; auto|].
      apply wq_drop; [right; auto|]. apply HQ; right; auto.
    + rewrite !andb_false_r. inversion H; subst; [|exfalso; destruct H2; auto]. apply wq_keep; auto.
Qed.
Lemma kept_order s : forall d rq rdq, subsequence (remove_dot_quotes_from d rq rdq s) s.
Proof.
  induction s as [|c s IH]; intros d rq rdq; cbn [remove_dot_quotes_from]; [constructor|].
  repeat match goal with |- context [if ?b then _ else _] => destruct b end; try (apply ss_drop; auto; fail). apply ss_keep. auto.
Qed.
