(** Correctness of the reference regular expressions. *)
From Coq Require Import List String Ascii Bool Arith Lia.
From Verif Require Import Base GoStr GoStr_facts Spec_Regex Ref_Regex.
Import ListNotations.
Open Scope string_scope.

(** ** Matching *)
Definition emptyb (s : string) : bool := match s with EmptyString => true | _ => false end.

Lemma emptyb_app p m : emptyb (p ++ m) = emptyb p && emptyb m.
Proof. destruct p; auto. Qed.

Definition run_ok (r : rx) : Prop := forall p s b' s',
  In (b', s') (run r (emptyb p, s)) <-> exists m, s = m ++ s' /\ b' = emptyb (p ++ m) /\ mat r p m s'.

(** star with progress *)
Lemma star_progress a p m s' : mat (RStar a) p m s' ->
  m = "" \/ exists x y, m = x ++ y /\ x <> "" /\ mat a p x (y ++ s') /\ mat (RStar a) (p ++ x) y s'.
Proof.
  intro H. remember (RStar a) as r. revert Heqr. induction H; intro E; inversion E; subst; auto.
  destruct (string_dec s "") as [->|N].
  - simpl. rewrite append_nil_r in IHmat2, H0.
    exact (IHmat2 eq_refl).
  - right. exists s, t. auto.
Qed.

Lemma closure_ok a : run_ok a -> forall n p s b' s', String.length s <= n ->
  (In (b', s') (closure n (run a) (emptyb p, s)) <->
   exists m, s = m ++ s' /\ b' = emptyb (p ++ m) /\ mat (RStar a) p m s').
Proof.
  intros HA. induction n as [|n IH]; intros p s b' s' HL.
  - destruct s; simpl in HL; [|lia]. simpl. split.
    + intros [E|[]]. injection E; intros; subst. exists "". rewrite (append_nil_r p). repeat split; auto. constructor.
    + intros (m & E & -> & H). destruct m; [|discriminate]. simpl in E. rewrite (append_nil_r p). left. congruence.
  - cbn [closure]. cbn [snd]. split.
    + intros [E|HI].
      * injection E; intros; subst. exists "". rewrite (append_nil_r p). repeat split; auto. constructor.
      * apply nodup_In in HI. apply in_flat_map in HI. destruct HI as ([b1 s1] & HF & HC).
        apply filter_In in HF. destruct HF as [HR HLt]. apply Nat.ltb_lt in HLt. simpl in HLt.
        apply HA in HR. destruct HR as (m1 & -> & -> & HM).
        apply IH in HC; [|lia]. destruct HC as (m2 & -> & -> & HM2).
        exists (m1 ++ m2). rewrite !append_assoc. repeat split; auto. econstructor; eauto.
    + intros (m & -> & -> & HM). apply star_progress in HM.
      destruct HM as [->|(x & y & -> & Hx & H1 & H2)].
      * left. rewrite append_nil_r. auto.
      * right. apply nodup_In. apply in_flat_map. exists (emptyb (p ++ x), y ++ s'). split.
        -- apply filter_In. split.
           ++ apply HA. exists x. rewrite append_assoc. auto.
           ++ apply Nat.ltb_lt. cbn [snd]. rewrite (length_append (x ++ y)), (length_append x y), length_append. destruct x; [congruence|]. simpl. lia.
        -- apply IH. { rewrite (length_append (x ++ y)), (length_append x y) in HL. rewrite length_append. destruct x; [congruence|]. simpl in HL. lia. }
           exists y. rewrite append_assoc. auto.
Qed.

Lemma run_correct r : run_ok r.
Proof.
  induction r as [|f|a IHa b IHb|a IHa b IHb|a IHa| |]; intros p s b' s'; simpl.
  - split.
    + intros [E|[]]. injection E; intros; subst. exists "". rewrite (append_nil_r p). repeat split; auto. constructor.
    + intros (m & -> & -> & H). inversion H; subst. rewrite append_nil_r. auto.
  - destruct s as [|c s].
    + split; [contradiction|]. intros (m & E & -> & H). inversion H; subst. discriminate.
    + destruct (f c) eqn:Ef; simpl.
      * split.
        -- intros [E|[]]. injection E; intros; subst. exists (String c ""). repeat split; auto.
           ++ rewrite emptyb_app. simpl. rewrite andb_false_r. auto.
           ++ constructor; auto.
        -- intros (m & E & -> & H). inversion H; subst. simpl in E. injection E; intros; subst.
           rewrite emptyb_app. simpl. rewrite andb_false_r. auto.
      * split; [contradiction|]. intros (m & E & -> & H). inversion H; subst. injection E; intros; subst. congruence.
  - split.
    + intro HI. apply nodup_In, in_flat_map in HI. destruct HI as ([b1 s1] & H1 & H2). apply IHa in H1. destruct H1 as (m1 & -> & -> & HM1).
      apply IHb in H2. destruct H2 as (m2 & -> & -> & HM2).
      exists (m1 ++ m2). rewrite !append_assoc. repeat split; auto. econstructor; eauto.
    + intros (m & -> & -> & H). inversion H; subst.
      apply nodup_In, in_flat_map. exists (emptyb (p ++ s), t ++ s'). split.
      * apply IHa. exists s. rewrite append_assoc. auto.
      * apply IHb. exists t. rewrite append_assoc. auto.
  - unfold run_ok in IHa, IHb. rewrite in_app_iff, IHa, IHb. split.
    + intros [(m & -> & -> & H)|(m & -> & -> & H)]; exists m; repeat split; auto.
      * apply mat_alt_l; auto.
      * apply mat_alt_r; auto.
    + intros (m & -> & -> & H). inversion H; subst; [left|right]; eauto.
  - apply closure_ok; auto.
  - destruct p; simpl.
    + split.
      * intros [E|[]]. injection E; intros; subst. exists "". repeat split; auto. constructor.
      * intros (m & -> & -> & H). inversion H; subst. auto.
    + split; [contradiction|]. intros (m & E & _ & H). inversion H.
  - destruct s; simpl.
    + split.
      * intros [E|[]]. injection E; intros; subst. exists "". rewrite (append_nil_r p). repeat split; auto. constructor.
      * intros (m & E & -> & H). inversion H; subst. rewrite append_nil_r. auto.
    + split; [contradiction|]. intros (m & E & _ & H). inversion H; subst. discriminate.
Qed.

Lemma non_empty_in {A} (l : list A) : non_empty l = true <-> exists x, In x l.
Proof. destruct l; simpl; split; try discriminate; eauto. intros [x []]. Qed.

Lemma search_ok r : forall s p, search r (emptyb p) s = true <->
  exists p' m q, s = p' ++ m ++ q /\ mat r (p ++ p') m q.
Proof.
  induction s as [|c s IH]; intro p; cbn [search]; rewrite orb_true_iff, non_empty_in.
  - split.
    + intros [[[b' s'] H]|]; [|discriminate]. apply run_correct in H. destruct H as (m & E & _ & HM).
      exists "", m, s'. rewrite append_nil_r. auto.
    + intros (p' & m & q & E & HM). left. destruct p'; [|discriminate]. rewrite append_nil_r in HM.
      exists (emptyb (p ++ m), q). apply run_correct. exists m. auto.
  - replace false with (emptyb (p ++ String c "")) by (rewrite emptyb_app; apply andb_false_r).
    rewrite IH. split.
    + intros [[[b' s'] H]|(p' & m & q & -> & HM)].
      * apply run_correct in H. destruct H as (m & E & _ & HM). exists "", m, s'. rewrite append_nil_r. auto.
      * exists (String c p'), m, q. split; auto. rewrite append_assoc in HM. auto.
    + intros (p' & m & q & E & HM). destruct p' as [|c' p'].
      * left. rewrite append_nil_r in HM. exists (emptyb (p ++ m), q). apply run_correct. exists m. auto.
      * right. injection E; intros; subst. exists p', m, q. split; auto. rewrite append_assoc. auto.
Qed.

Theorem rx_match_found r s : rx_match r s = true <-> found r s.
Proof. unfold rx_match. rewrite (search_ok r s ""). reflexivity. Qed.

(** ** Expressions with the same character sets *)
Fixpoint rx_same (a b : rx) : Prop :=
  match a, b with
  | REps, REps | RBegin, RBegin | REnd, REnd => True
  | RChr f, RChr g => forall c, f c = g c
  | RSeq a1 a2, RSeq b1 b2 | RAlt a1 a2, RAlt b1 b2 => rx_same a1 b1 /\ rx_same a2 b2
  | RStar a1, RStar b1 => rx_same a1 b1
  | _, _ => False
  end.

Lemma rx_same_refl a : rx_same a a.
Proof. induction a; simpl; auto. Qed.

Lemma rx_same_mat a p s q : mat a p s q -> forall b, rx_same a b -> mat b p s q.
Proof.
  induction 1; intros bb HS; destruct bb; simpl in HS; try contradiction; try destruct HS.
  - constructor.
  - constructor. rewrite <- HS; auto.
  - econstructor; eauto.
  - apply mat_alt_l; auto.
  - apply mat_alt_r; auto.
  - constructor.
  - econstructor; eauto.
  - constructor.
  - constructor.
Qed.

Lemma rx_same_sym a : forall b, rx_same a b -> rx_same b a.
Proof. induction a; destruct b; simpl; auto; intuition. Qed.

Lemma rx_same_found a b s : rx_same a b -> (found a s <-> found b s).
Proof.
  intro HS. split; intros (p & m & q & E & H); exists p, m, q; split; auto;
    eapply rx_same_mat; eauto using rx_same_sym.
Qed.

(** ** Parsing *)
Definition plain_start (s : string) : bool :=
  match s with EmptyString => true | String c _ => negb (existsb (Ascii.eqb c) ["*"; "+"; "?"; "{"]%char) end.

Lemma parse_rep_plain a s : plain_start s = true -> parse_rep a s = Some (a, s).
Proof.
  destruct s as [|c s]; auto. simpl. intro H.
  destruct c as [[] [] [] [] [] [] [] []]; try reflexivity; discriminate.
Qed.

Lemma parse_rep_star a s : plain_start s = true -> parse_rep a (String "*" s) = Some (RStar a, s).
Proof.
  destruct s as [|c s]; auto. simpl. intro H.
  destruct c as [[] [] [] [] [] [] [] []]; try reflexivity; discriminate.
Qed.

Lemma atom_start t r rest : atom_text t r -> plain_start (t ++ rest) = true.
Proof.
  destruct 1 as [c [H _]|  | | | | |]; auto. simpl.
  destruct c as [[] [] [] [] [] [] [] []]; try reflexivity; exfalso; apply H; simpl; tauto.
Qed.

Lemma atom_not_stops t r rest : atom_text t r -> stops (t ++ rest) = false.
Proof.
  destruct 1 as [c [H _]|  | | | | |]; auto. simpl.
  destruct c as [[] [] [] [] [] [] [] []]; try reflexivity; exfalso; apply H; simpl; tauto.
Qed.

Lemma stops_start s : stops s = true -> plain_start s = true.
Proof.
  destruct s as [|c s]; auto. simpl. destruct c as [[] [] [] [] [] [] [] []]; auto; discriminate.
Qed.

Lemma seq_start t r rest : seq_text t r -> stops rest = true -> plain_start (t ++ rest) = true.
Proof.
  destruct 1; intro HS; simpl; [apply stops_start; auto|]. rewrite append_assoc. eapply atom_start; eauto.
Qed.

Lemma parse_seq_S f s : parse_seq (S f) s =
  if stops s then Some (REps, s) else
  match parse_atom f s with
  | None => None
  | Some (a, s1) =>
    match parse_rep a s1 with
    | None => None
    | Some (a', s2) => match parse_seq f s2 with Some (r, s3) => Some (RSeq a' r, s3) | None => None end
    end
  end.
Proof. reflexivity. Qed.

Lemma parse_alt_S f s : parse_alt (S f) s =
  match parse_seq f s with
  | None => None
  | Some (r, String "|" s') => match parse_alt f s' with Some (r', s2) => Some (RAlt r r', s2) | None => None end
  | Some (r, s') => Some (r, s')
  end.
Proof. reflexivity. Qed.

(** atom and following repetition, when no further repetition follows *)
Lemma parse_atom_text f t r rest : atom_text t r -> plain_start rest = true ->
  exists a s1 a', parse_atom (S f) (t ++ rest) = Some (a, s1) /\ parse_rep a s1 = Some (a', rest) /\ rx_same a' r.
Proof.
  destruct 1 as [c [H HN]| |c HC| | | |]; intro HP.
  - exists (lit c), rest, (lit c). split; [|split; [apply parse_rep_plain; auto|apply rx_same_refl]].
    destruct c as [[] [] [] [] [] [] [] []]; try reflexivity; exfalso; apply H; simpl; tauto.
  - eexists _, rest, _. split; [reflexivity|]. split; [apply parse_rep_plain; auto|].
    intro c. simpl. reflexivity.
  - exists (lit c), rest, (lit c). split; [|split; [apply parse_rep_plain; auto|apply rx_same_refl]].
    simpl in HC. destruct HC as [<-|[<-|[<-|[]]]]; reflexivity.
  - exists any_char, rest, any_char. split; [reflexivity|]. split; [apply parse_rep_plain; auto|]. apply rx_same_refl.
  - exists any_char, (String "*" rest), (RStar any_char). split; [reflexivity|]. split; [apply parse_rep_star; auto|]. apply rx_same_refl.
  - exists RBegin, rest, RBegin. split; [reflexivity|]. split; [apply parse_rep_plain; auto|]. exact I.
  - exists REnd, rest, REnd. split; [reflexivity|]. split; [apply parse_rep_plain; auto|]. exact I.
Qed.

Lemma atom_nonempty t r : atom_text t r -> 1 <= String.length t.
Proof. destruct 1; simpl; lia. Qed.

Lemma parse_seq_text t r : seq_text t r -> forall f rest, stops rest = true -> String.length t + 2 <= f ->
  exists r', parse_seq f (t ++ rest) = Some (r', rest) /\ rx_same r' r.
Proof.
  induction 1 as [|t r ts rs HA HS IH]; intros f rest HR HF.
  - destruct f as [|f]; [simpl in HF; lia|]. simpl. rewrite HR. exists REps. simpl; auto.
  - destruct f as [|[|f]]; [lia|lia|]. rewrite append_assoc, parse_seq_S.
    rewrite (atom_not_stops _ _ _ HA).
    destruct (parse_atom_text f t r (ts ++ rest) HA) as (a & s1 & a' & E1 & E2 & E3).
    { eapply seq_start; eauto. }
    rewrite E1, E2.
    destruct (IH (S f) rest HR) as (r' & E4 & E5).
    { rewrite length_append in HF. apply atom_nonempty in HA. lia. }
    rewrite E4. exists (RSeq a' r'). simpl; auto.
Qed.

Definition closes (s : string) : bool :=
  match s with EmptyString => true | String c _ => Ascii.eqb c ")" end.
Lemma closes_stops s : closes s = true -> stops s = true.
Proof. destruct s; auto. simpl. intros ->. apply orb_true_r. Qed.

Lemma parse_alt_text t r : alt_text t r -> forall f rest, closes rest = true -> String.length t + 3 <= f ->
  exists r', parse_alt f (t ++ rest) = Some (r', rest) /\ rx_same r' r.
Proof.
  induction 1 as [t r HS|t r ts rs HS HA IH]; intros f rest HR HF.
  - destruct f as [|f]; [lia|]. cbn [parse_alt].
    destruct (parse_seq_text t r HS f rest (closes_stops _ HR)) as (r' & E & HE); [lia|].
    rewrite E. exists r'. split; auto. destruct rest as [|c rest]; auto.
    simpl in HR. apply Ascii.eqb_eq in HR. subst. auto.
  - destruct f as [|f]; [lia|]. cbn [parse_alt]. rewrite !append_assoc.
    rewrite !length_append in HF. simpl in HF.
    destruct (parse_seq_text t r HS f ("|" ++ ts ++ rest) eq_refl) as (r' & E & HE); [lia|].
    rewrite E. cbn [append].
    destruct (IH f rest HR) as (r2 & E2 & HE2); [lia|].
    rewrite E2. exists (RAlt r' r2). simpl; auto.
Qed.

Lemma parse_seq_end f : parse_seq (S f) "" = Some (REps, "").
Proof. reflexivity. Qed.

Lemma mat_seq_eps r p s q : mat (RSeq r REps) p s q <-> mat r p s q.
Proof.
  split.
  - intro H. inversion H; subst. inversion H6; subst. rewrite append_nil_r. auto.
  - intro H. rewrite <- (append_nil_r s). constructor; simpl; auto. constructor.
Qed.

Theorem rx_compile_text t r : pattern_text t r ->
  exists r', rx_compile t = Some r' /\ forall s, found r' s <-> found r s.
Proof.
  destruct 1 as [t r H|t r H].
  - unfold rx_compile. destruct (parse_alt_text t r H (3 * String.length t + 3) "" eq_refl) as (r' & E & HE); [lia|].
    rewrite append_nil_r in E. rewrite E. exists r'. split; auto. intro s. apply rx_same_found; auto.
  - unfold rx_compile.
    remember (3 * String.length ("(" ++ t ++ ")") + 3)%nat as f eqn:Ef.
    assert (HF : String.length t + 6 <= f).
    { subst f. rewrite !length_append. simpl. lia. }
    do 3 (destruct f as [|f]; [lia|]).
    cbn [append]. rewrite parse_alt_S, parse_seq_S.
    change (stops (String "(" (t ++ ")"))) with false. cbn iota.
    destruct (parse_alt_text t r H f ")" eq_refl) as (r' & E & HE); [lia|].
    assert (EA : parse_atom (S f) (String "(" (t ++ ")")) = Some (r', "")).
    { cbn [parse_atom].
      assert (EI : match t ++ ")" with
                   | String "?" (String ":" s2) => Some s2
                   | String "?" _ => None
                   | _ => Some (t ++ ")")
                   end = Some (t ++ ")")).
      { assert (HP : plain_start (t ++ ")") = true).
        { destruct H as [t r HS|t r ts rs HS HA].
          - eapply seq_start; eauto.
          - rewrite !append_assoc. eapply seq_start; eauto. }
        destruct (t ++ ")") as [|c s]; auto. simpl in HP.
        destruct c as [[] [] [] [] [] [] [] []]; try reflexivity; discriminate. }
      rewrite EI, E. reflexivity. }
    rewrite EA, parse_rep_plain, parse_seq_end by auto.
    exists (RSeq r' REps). split; auto.
    intro s. transitivity (found r' s); [|apply rx_same_found; auto].
    split; intros (p & m & q & E0 & HM); exists p, m, q; split; auto; apply mat_seq_eps; auto.
Qed.
