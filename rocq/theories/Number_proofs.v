(** Numbers with units: the engine's suffix handling against the specification. *)
From Coq Require Import List String Ascii Bool Arith ZArith Lia SpecFloat.
From Verif Require Import Base GoStr GoStr_facts GoFloat Types StrUtils Validate Prepare Spec_Leaf.
Import ListNotations.
Open Scope string_scope.
Local Arguments String.prefix : simpl never.

(** ** drop and suffixes *)
Lemma drop_app a b : drop (String.length a) (a ++ b) = b.
Proof. induction a; simpl; auto. Qed.

Lemma drop_add n m s : drop n (drop m s) = drop (m + n) s.
Proof.
  revert s. induction m; intro s; simpl; auto. destruct s; simpl; auto.
  destruct n; auto.
Qed.

Lemma has_suffix_iff s u : has_suffix s u = true <-> exists n, s = n ++ u.
Proof.
  unfold has_suffix. rewrite andb_true_iff, Nat.leb_le, String.eqb_eq. split.
  - intros (HL & H). exists (take (String.length s - String.length u) s).
    rewrite <- H at 2. clear. generalize (String.length s - String.length u)%nat as k.
    induction s; destruct k; simpl; auto. rewrite <- IHs. auto.
  - intros (n & E). subst. rewrite length_append. split; [lia|].
    replace (String.length n + String.length u - String.length u)%nat with (String.length n) by lia.
    apply drop_app.
Qed.

Lemma suffix_of_suffix n u n' u' : n ++ u = n' ++ u' -> (String.length u' <= String.length u)%nat ->
  has_suffix u u' = true.
Proof.
  intros E HL. apply has_suffix_iff.
  assert (EL : (String.length n + String.length u = String.length n' + String.length u')%nat).
  { rewrite <- !length_append, E. auto. }
  revert n' E EL. induction n; intros n' E EL; simpl in *.
  - exists n'. auto.
  - destruct n'; simpl in *; [lia|]. injection E; intros. eapply (IHn n'); auto; lia.
Qed.

(** ** Occurrences of a word *)
Definition only_at_end (s u : string) : Prop := forall a b, s = a ++ u ++ b -> b = "".

Lemma count_skip u s : forall k, count_from u k s = count_from u 0 (drop k s).
Proof.
  induction s as [|c s IH]; intro k; destruct k; simpl; auto.
Qed.
Lemma count_short u s k : (String.length s <= k)%nat -> count_from u k s = 0%nat.
Proof.
  revert k. induction s; intros k H; simpl in *; auto. destruct k; [lia|]. apply IHs. lia.
Qed.
Lemma replace_short u w s k : (String.length s <= k)%nat -> replace_all_from u w k s = "".
Proof.
  revert k. induction s; intros k H; simpl in *; auto. destruct k; [lia|]. apply IHs. lia.
Qed.

Lemma prefix_app_eq u r : String.prefix u (u ++ r) = true.
Proof. apply prefix_iff. eauto. Qed.
Lemma prefix_refl u : String.prefix u u = true.
Proof. apply prefix_iff. exists "". symmetry. apply append_nil_r. Qed.

Lemma count_ge u x : u <> "" -> (1 <= count_from u 0 (x ++ u))%nat.
Proof.
  intro NE. induction x as [|c x IH]; simpl.
  - destruct u as [|c u]; [congruence|]. cbn [count_from].
    rewrite prefix_refl. lia.
  - destruct (String.prefix u (String c (x ++ u))); lia.
Qed.

Lemma length_zero s : String.length s = 0%nat -> s = "".
Proof. destruct s; simpl; [auto|discriminate]. Qed.

Lemma only_at_end_count u n : u <> "" -> only_at_end (n ++ u) u ->
  count (n ++ u) u = 1%nat /\ replace_all (n ++ u) u "" = n.
Proof.
  intros NE. unfold count, replace_all. induction n as [|c n IH]; intro H; simpl.
  - destruct u as [|c u]; [congruence|]. cbn [count_from replace_all_from].
    rewrite prefix_refl.
    rewrite count_short, replace_short; simpl; auto; lia.
  - destruct (String.prefix u (String c (n ++ u))) eqn:EP.
    + exfalso. apply prefix_iff in EP. destruct EP as [r E].
      assert (r = "") by (apply (H "" r); simpl; auto). subst r.
      rewrite append_nil_r in E.
      assert (String.length (String c (n ++ u)) = String.length u) by congruence.
      simpl in H0. rewrite length_append in H0. lia.
    + destruct IH as [I1 I2].
      { intros a b E. apply (H (String c a) b). simpl. congruence. }
      rewrite I1, I2. auto.
Qed.

(** no proper suffix of [u] is a prefix of [u] *)
Definition no_border (u : string) : Prop := forall v w x, u = v ++ w -> u = w ++ x -> v <> "" -> w <> "" -> False.

Lemma count_only_at_end u n : u <> "" -> no_border u -> count (n ++ u) u = 1%nat -> only_at_end (n ++ u) u.
Proof.
  intros NE NB. unfold count. induction n as [|c n IH]; intro H; simpl.
  - intros a b E. apply length_zero. assert (EL : String.length u = String.length (a ++ u ++ b)) by congruence.
    rewrite !length_append in EL. lia.
  - simpl in H. destruct (String.prefix u (String c (n ++ u))) eqn:EP.
    + exfalso. apply prefix_iff in EP. destruct EP as [r E].
      assert (HC : count_from u 0 r = 0%nat).
      { rewrite count_skip in H.
        assert (drop (String.length u - 1) (n ++ u) = r).
        { replace (drop (String.length u - 1) (n ++ u)) with (drop (String.length u) (String c (n ++ u))).
          - rewrite E. apply drop_app.
          - destruct u; [congruence|]. simpl. rewrite Nat.sub_0_r. auto. }
        rewrite H0 in H. lia. }
      assert (EL : String.length (String c (n ++ u)) = String.length (u ++ r)) by congruence.
      simpl in EL. rewrite !length_append in EL.
      destruct (Nat.le_gt_cases (String.length u) (String.length r)) as [HL|HL].
      * change (String c n ++ u = u ++ r) in E. symmetry in E.
        pose proof (suffix_of_suffix _ _ _ _ E HL) as HS. apply has_suffix_iff in HS. destruct HS as [r' ->].
        pose proof (count_ge u r' NE). lia.
      * change (String c n ++ u = u ++ r) in E.
        assert (exists v, u = String c n ++ v /\ u = v ++ r).
        { assert (HLn : (String.length (String c n) <= String.length u)%nat) by (simpl; lia).
          assert (HP : exists v, u = String c n ++ v).
          { clear - E HLn. revert E HLn. generalize (String c n) as p. intro p. generalize u at 1 as z. revert u.
            induction p as [|d p IHp]; intros u z E HL; simpl.
            - exists u; auto.
            - destruct u as [|d' u]; simpl in *; [lia|]. injection E; intros E1 E2. subst d'.
              destruct (IHp u z E1 ltac:(lia)) as [v ->]. exists v. auto. }
          destruct HP as [v Hv]. exists v. split; auto.
          rewrite Hv in E at 2. rewrite append_assoc in E. apply append_inj_l in E. auto. }
        destruct H0 as (v & E1 & E2).
        apply (NB (String c n) v r); auto; [discriminate|]. intro V. subst v. rewrite append_nil_r in E1.
        rewrite E1 in HL, EL. simpl in *. lia.
    + intros a b E. destruct a as [|c' a].
      * simpl in E. rewrite E, prefix_app_eq in EP. discriminate.
      * injection E; intros E1 E2. eapply IH; eauto.
Qed.

(** ** The table *)
Lemma unit_table : units = unit_factors.
Proof. vm_compute. reflexivity. Qed.

Definition no_borderb (u : string) : bool :=
  forallb (fun k => negb (String.prefix (drop k u) u)) (seq 1 (String.length u - 1)).
Lemma no_borderb_ok u : no_borderb u = true -> no_border u.
Proof.
  intros H v w x E1 E2 NV NW. unfold no_borderb in H. rewrite forallb_forall in H.
  assert (HI : In (String.length v) (seq 1 (String.length u - 1))).
  { apply in_seq. rewrite E1, length_append. destruct v; [congruence|]. destruct w; [congruence|]. simpl. lia. }
  apply H in HI. rewrite E1 in HI at 1. rewrite drop_app in HI. rewrite E2, prefix_app_eq in HI. discriminate.
Qed.

Lemma units_facts u f : In (u, f) unit_factors -> u <> "" /\ no_border u.
Proof.
  intro H.
  assert (HB : forallb (fun e => negb (String.eqb (fst e) "") && no_borderb (fst e)) unit_factors = true)
    by (vm_compute; reflexivity).
  rewrite forallb_forall in HB. apply HB in H. simpl in H. apply andb_true_iff in H. destruct H as [H1 H2].
  split; [|apply no_borderb_ok; auto]. intros ->. discriminate.
Qed.

Lemma units_suffix u f u' f' : In (u, f) unit_factors -> In (u', f') unit_factors -> has_suffix u u' = true -> u = u'.
Proof.
  intros H H' HS.
  assert (HB : forallb (fun e => forallb (fun e' => negb (has_suffix (fst e) (fst e')) || String.eqb (fst e) (fst e'))
                  unit_factors) unit_factors = true) by (vm_compute; reflexivity).
  rewrite forallb_forall in HB. apply HB in H. rewrite forallb_forall in H. apply H in H'. simpl in H'.
  rewrite HS in H'. simpl in H'. apply String.eqb_eq in H'. auto.
Qed.

Lemma units_factor u f f' : In (u, f) unit_factors -> In (u, f') unit_factors -> f = f'.
Proof.
  intros H H'. unfold unit_factors in *. simpl in H, H'.
  repeat (destruct H as [H|H]; [injection H; intros; subst; clear H;
    repeat (destruct H' as [H'|H']; [try discriminate H'; injection H'; intros; subst; reflexivity|]); destruct H'|]).
  destruct H.
Qed.

Lemma has_unit_unique s n u f n' u' f' : has_unit s n u f -> has_unit s n' u' f' -> n = n' /\ u = u' /\ f = f'.
Proof.
  intros (E & HI & _) (E' & HI' & _).
  assert (u = u').
  { destruct (Nat.le_ge_cases (String.length u') (String.length u)) as [HL|HL].
    - eapply units_suffix; eauto. eapply suffix_of_suffix; [|exact HL]. rewrite <- E, <- E'. auto.
    - symmetry. eapply units_suffix; eauto. eapply suffix_of_suffix; [|exact HL]. rewrite <- E, <- E'. auto. }
  subst u'. split; [|split; auto; eapply units_factor; eauto].
  rewrite E in E'. clear - E'. revert n' E'.
  assert (HX : forall n n' : string, n ++ u = n' ++ u -> String.length n = String.length n').
  { intros a b E. assert (String.length (a ++ u) = String.length (b ++ u)) by congruence.
    rewrite !length_append in H. lia. }
  induction n as [|c n IH]; intros n' E; pose proof (HX _ _ E) as HL.
  - destruct n'; [auto|discriminate].
  - destruct n' as [|c' n']; [discriminate|]. simpl in E. injection E; intros E1 E2. subst. f_equal. auto.
Qed.

Lemma suffix_test s u f : In (u, f) unit_factors ->
  (has_suffix s u && (count s u =? 1)%nat = true <-> has_unit s (replace_all s u "") u f).
Proof.
  intro HI. destruct (units_facts _ _ HI) as [NE NB]. split.
  - rewrite andb_true_iff, Nat.eqb_eq. intros (HS & HC). apply has_suffix_iff in HS. destruct HS as [n ->].
    pose proof (count_only_at_end u n NE NB HC) as HO. destruct (only_at_end_count u n NE HO) as [_ HR].
    rewrite HR. repeat split; auto.
  - intros (E & _ & HO). apply andb_true_iff. split; [apply has_suffix_iff; eauto|].
    rewrite E. apply Nat.eqb_eq. apply only_at_end_count; auto. unfold only_at_end. rewrite <- E. auto.
Qed.

Lemma suffix_test' s n u f : has_unit s n u f -> has_suffix s u && (count s u =? 1)%nat = true /\ replace_all s u "" = n.
Proof.
  intros (E & HI & HO). destruct (units_facts _ _ HI) as [NE NB].
  assert (HO' : only_at_end (n ++ u) u) by (unfold only_at_end; rewrite <- E; auto).
  destruct (only_at_end_count u n NE HO') as [HC HR]. rewrite E. split; auto.
  rewrite HC, andb_true_iff. split; auto. apply has_suffix_iff. eauto.
Qed.

Lemma with_units_some us s n f : (forall e, In e us -> In e unit_factors) -> forall u,
  has_unit s n u f -> In (u, f) us -> with_units us s = (n, f).
Proof.
  intros HS u HU HI. induction us as [|[u1 f1] us IH]; [destruct HI|].
  cbn [with_units]. destruct (has_suffix s u1 && (count s u1 =? 1)%nat) eqn:ET.
  - apply (suffix_test s u1 f1) in ET; [|apply HS; left; auto].
    destruct (has_unit_unique _ _ _ _ _ _ _ HU ET) as (E1 & E2 & E3). congruence.
  - destruct HI as [E|HI].
    + injection E; intros; subst. apply suffix_test' in HU. destruct HU. congruence.
    + apply IH; auto. intros e He. apply HS. right; auto.
Qed.

Lemma with_units_none us s : (forall e, In e us -> In e unit_factors) ->
  (forall n u f, ~ has_unit s n u f) -> with_units us s = (s, f_one).
Proof.
  intros HS HN. induction us as [|[u1 f1] us IH]; auto. cbn [with_units].
  destruct (has_suffix s u1 && (count s u1 =? 1)%nat) eqn:ET.
  - apply (suffix_test s u1 f1) in ET; [|apply HS; left; auto]. exfalso. eapply HN; eauto.
  - apply IH. intros e He. apply HS. right; auto.
Qed.

Lemma has_unit_dec s : (exists n u f, has_unit s n u f) \/ (forall n u f, ~ has_unit s n u f).
Proof.
  destruct (existsb (fun e => has_suffix s (fst e) && (count s (fst e) =? 1)%nat) unit_factors) eqn:EX.
  - left. apply existsb_exists in EX. destruct EX as ((u & f) & HI & HT). simpl in HT.
    apply (suffix_test s u f HI) in HT. eauto.
  - right. intros n u f HU. assert (existsb (fun e => has_suffix s (fst e) && (count s (fst e) =? 1)%nat) unit_factors = true).
    { apply existsb_exists. exists (u, f). split; [apply HU|]. apply suffix_test' in HU. apply HU. }
    congruence.
Qed.

Section WithLib.
Variable L : Lib.

Theorem number_iff s y : float_with_units L s = Some y <-> quantity L s y.
Proof.
  unfold float_with_units, convert_string_with_units. rewrite unit_table.
  destruct (has_unit_dec s) as [(n & u & f & HU)|HN].
  - rewrite (with_units_some _ s n f (fun e H => H) u HU); [|apply HU]. split.
    + destruct (parse_float L n) eqn:EP; [|discriminate]. intro E. injection E; intros; subst.
      eapply qu_unit; eauto.
    + intro Q. destruct Q as [n' u' f' x HU' HP|x HN' HP].
      * destruct (has_unit_unique _ _ _ _ _ _ _ HU HU') as (-> & -> & ->). rewrite HP. auto.
      * exfalso. eapply HN'; eauto.
  - rewrite (with_units_none _ s (fun e H => H) HN). split.
    + destruct (parse_float L s) eqn:EP; [|discriminate]. intro E. injection E; intros; subst.
      apply qu_plain; auto.
    + intro Q. destruct Q as [n' u' f' x HU' HP|x HN' HP].
      * exfalso. eapply HN; eauto.
      * rewrite HP. auto.
Qed.

Lemma not_number_iff s : float_with_units L s = None <-> not_number L s.
Proof.
  unfold not_number. split.
  - intros H x Q. apply number_iff in Q. congruence.
  - intro H. destruct (float_with_units L s) eqn:E; auto. exfalso. eapply H. apply number_iff. eauto.
Qed.

Lemma quantity_fun s x y : quantity L s x -> quantity L s y -> x = y.
Proof. rewrite <- !number_iff. congruence. Qed.

(** decimal integers have a number; references have none *)
Lemma parse_digits_chars s : forall a z, parse_digits a s = Some z ->
  Forall (fun c => digit_val c <> None) (list_ascii_of_string s).
Proof.
  induction s as [|c s IH]; intros a z H; simpl in *; [constructor|].
  destruct (digit_val c) eqn:ED; [|discriminate]. constructor; [congruence|]. eapply IH; eauto.
Qed.

Lemma list_ascii_app a b : list_ascii_of_string (a ++ b) = (list_ascii_of_string a ++ list_ascii_of_string b)%list.
Proof. induction a; simpl; congruence. Qed.

Lemma parse_int_chars s z : parse_int s = Some z ->
  Forall (fun c => digit_val c <> None \/ c = "-"%char \/ c = "+"%char) (list_ascii_of_string s).
Proof.
  unfold parse_int. intro H.
  assert (HU : forall s z, parse_uint s = Some z ->
     Forall (fun c => digit_val c <> None \/ c = "-"%char \/ c = "+"%char) (list_ascii_of_string s)).
  { intros s0 z0 H0. unfold parse_uint in H0. destruct s0; [discriminate|]. apply parse_digits_chars in H0.
    eapply Forall_impl; [|exact H0]. auto. }
  destruct s as [|c s]; [discriminate|].
  destruct (Ascii.ascii_dec c "-") as [->|N1].
  - destruct (parse_uint s) eqn:EU; [|discriminate]. simpl. constructor; auto. eauto.
  - destruct (Ascii.ascii_dec c "+") as [->|N2].
    + destruct (parse_uint s) eqn:EU; [|discriminate]. simpl. constructor; auto. eauto.
    + assert (HP : parse_uint (String c s) <> None).
      { intro E. destruct c as [[] [] [] [] [] [] [] []]; try (rewrite E in H; discriminate); congruence. }
      destruct (parse_uint (String c s)) eqn:EU; [|congruence]. eauto.
Qed.

Lemma unit_has_letter u f : In (u, f) unit_factors ->
  Exists (fun c => ~ (digit_val c <> None \/ c = "-"%char \/ c = "+"%char)) (list_ascii_of_string u).
Proof.
  intro H. unfold unit_factors in H. simpl in H.
  repeat (destruct H as [H|H]; [injection H; intros; subst; simpl; left; intros [X|[X|X]]; [apply X; reflexivity|discriminate|discriminate]|]).
  destruct H.
Qed.

Lemma int_no_unit s z : parse_int s = Some z -> forall n u f, ~ has_unit s n u f.
Proof.
  intros H n u f (E & HI & _). apply parse_int_chars in H. apply unit_has_letter in HI.
  rewrite E, list_ascii_app in H. apply Forall_app in H. destruct H as [_ H].
  rewrite Forall_forall in H. apply Exists_exists in HI. destruct HI as (c & Hc & N). apply N, H, Hc.
Qed.

Lemma int_is_number s z : NumberSpec L -> parse_int s = Some z -> float_with_units L s <> None.
Proof.
  intros [HN _] H E. apply not_number_iff in E.
  destruct (parse_float L s) as [x|] eqn:EP; [|eapply HN; eauto].
  eapply E. apply qu_plain; eauto. eapply int_no_unit; eauto.
Qed.

Lemma reference_not_number s : NumberSpec L -> float_with_units L (String "#" s) = None.
Proof.
  intros [_ HN]. apply not_number_iff. intros x Q. destruct Q as [n u f x (E & HI & _) HP|x _ HP].
  - destruct n as [|c n].
    + simpl in E. subst u. unfold unit_factors in HI. simpl in HI.
      repeat (destruct HI as [HI|HI]; [discriminate|]). destruct HI.
    + simpl in E. injection E; intros; subst. rewrite HN in HP. discriminate.
  - rewrite HN in HP. discriminate.
Qed.

Lemma reference_not_int s : parse_int (String "#" s) = None.
Proof. reflexivity. Qed.

End WithLib.

(** ** Order on float64 *)
Lemma compare_opp a b : SFcompare b a = option_map CompOpp (SFcompare a b).
Proof.
  destruct a as [[]|[]| |[] m e], b as [[]|[]| |[] m' e']; simpl; auto;
    assert (HP : Pos.compare_cont Eq m' m = CompOpp (Pos.compare_cont Eq m m'))
      by (symmetry; apply (Pos.compare_cont_antisym m m' Eq));
    rewrite HP, (Z.compare_antisym e e'); destruct (e ?= e')%Z; simpl; auto;
    destruct (Pos.compare_cont Eq m m'); auto.
Qed.

Definition is_nan (x : f64) : Prop := x = S754_nan.

Lemma float_cases a b : ~ is_nan a -> ~ is_nan b ->
  (fltb a b = true /\ feqb a b = false /\ fltb b a = false)
  \/ (fltb a b = false /\ feqb a b = true /\ fltb b a = false)
  \/ (fltb a b = false /\ feqb a b = false /\ fltb b a = true).
Proof.
  intros Na Nb. unfold fltb, feqb, SFltb, SFeqb. rewrite (compare_opp a b).
  assert (HC : SFcompare a b <> None).
  { unfold is_nan in *. destruct a as [[]|[]| |[] m e], b as [[]|[]| |[] m' e']; simpl; try congruence;
    destruct (e ?= e')%Z; try congruence; destruct (Pos.compare_cont Eq m m'); congruence. }
  destruct (SFcompare a b) as [[]|]; simpl; try congruence; auto.
Qed.

Lemma float_le a b : fleb a b = fltb a b || feqb a b.
Proof. unfold fleb, fltb, feqb, SFltb, SFeqb, SFleb. destruct (SFcompare a b) as [[]|]; auto. Qed.

Lemma feqb_sym a b : feqb a b = feqb b a.
Proof. unfold feqb, SFeqb. rewrite (compare_opp b a). destruct (SFcompare b a) as [[]|]; auto. Qed.

Lemma nan_false a b : is_nan a \/ is_nan b -> fltb a b = false /\ feqb a b = false /\ fltb b a = false /\ fleb a b = false /\ fleb b a = false.
Proof.
  unfold fltb, feqb, fleb, SFltb, SFeqb, SFleb, is_nan. intros [->| ->]; simpl.
  - destruct b; simpl; auto 10.
  - destruct a; simpl; auto 10.
Qed.
