(** Proofs about the textual forms. *)
From Coq Require Import List String Ascii Bool Arith ZArith Permutation Lia.
From Verif Require Import Base GoStr GoStr_facts GoFloat Types Json StrUtils Validate Prepare Parse Marshal Strings
  Spec_Tree Spec_Glob Spec_Leaf Spec_Scope Spec_Json Spec_Strings Glob_proofs Tree_proofs Print_proofs Copy_proofs.
Import ListNotations.
Open Scope string_scope.
Local Arguments String.prefix : simpl never.

(** ** Sorting *)
Lemma leb_antisym a b : String.leb a b = true -> String.leb b a = true -> a = b.
Proof.
  unfold String.leb. rewrite (String.compare_antisym b a). destruct (String.compare a b) eqn:E; simpl; try congruence.
  intros _ _. apply String.compare_eq_iff; auto.
Qed.
Lemma leb_trans a b c : String.leb a b = true -> String.leb b c = true -> String.leb a c = true.
Proof.
  intros H1 H2. destruct (String.eqb_spec a b) as [->|N1]; auto. destruct (String.eqb_spec b c) as [->|N2]; auto.
  apply ltb_leb. eapply ltb_trans; apply leb_ltb; eauto.
Qed.
Lemma leb_refl a : String.leb a a = true.
Proof. destruct (String.leb a a) eqn:E; auto. pose proof (leb_false _ _ E). congruence. Qed.

Section Insert.
Context {A : Type} (key : A -> string) (insert : A -> list A -> list A).
Hypothesis insert_nil : forall x, insert x [] = [x].
Hypothesis insert_cons : forall x y l, insert x (y :: l) = if String.leb (key x) (key y) then x :: y :: l else y :: insert x l.
Lemma insert_comm x y : (key x = key y -> x = y) -> forall l, insert x (insert y l) = insert y (insert x l).
Proof.
  intro HK. induction l as [|z l IH].
  - rewrite !insert_nil, !insert_cons, !insert_nil. destruct (String.leb (key x) (key y)) eqn:E1, (String.leb (key y) (key x)) eqn:E2; auto.
    + rewrite (HK (leb_antisym _ _ E1 E2)). auto.
    + apply leb_false in E1. congruence.
  - rewrite (insert_cons y z l), (insert_cons x z l).
    destruct (String.leb (key x) (key z)) eqn:Ex, (String.leb (key y) (key z)) eqn:Ey.
    + rewrite !insert_cons, Ex, Ey. destruct (String.leb (key x) (key y)) eqn:E1, (String.leb (key y) (key x)) eqn:E2; auto.
      * rewrite (HK (leb_antisym _ _ E1 E2)). auto.
      * apply leb_false in E1. congruence.
    + rewrite !insert_cons, Ex, Ey. destruct (String.leb (key y) (key x)) eqn:E; auto.
      rewrite (leb_trans _ _ _ E Ex) in Ey. discriminate.
    + rewrite !insert_cons, Ex, Ey. destruct (String.leb (key x) (key y)) eqn:E; auto.
      rewrite (leb_trans _ _ _ E Ey) in Ex. discriminate.
    + rewrite !insert_cons, Ex, Ey, IH. auto.
Qed.
End Insert.

Lemma insert_str_comm x y l : insert_str x (insert_str y l) = insert_str y (insert_str x l).
Proof.
  apply (insert_comm (fun s => s) insert_str); auto.
  intros a b l'. cbn [insert_str]. rewrite str_leb_eq. auto.
Qed.
Lemma sort_strings_perm l l' : Permutation l l' -> sort_strings l = sort_strings l'.
Proof.
  induction 1; cbn [sort_strings]; try congruence. apply insert_str_comm.
Qed.
Lemma insert_str_perm x l : Permutation (insert_str x l) (x :: l).
Proof.
  induction l as [|y l IH]; [auto|]. cbn [insert_str]. destruct (str_leb _ _); auto.
  eapply Permutation_trans; [apply perm_skip, IH|apply perm_swap].
Qed.
Lemma sort_strings_same l : Permutation (sort_strings l) l.
Proof. induction l as [|x l IH]; [auto|]. cbn [sort_strings]. eapply Permutation_trans; [apply insert_str_perm|auto]. Qed.
Lemma sort_keys_perm {A} (l l' : list (string * A)) : Permutation l l' -> NoDup (keys l) -> sort_keys l = sort_keys l'.
Proof.
  induction 1; intro HN; cbn [sort_keys]; auto.
  - inversion HN; subst. rewrite IHPermutation; auto.
  - apply (insert_comm fst insert_key); auto.
    + intros a b l'. cbn [insert_key]. rewrite str_leb_eq. auto.
    + intro E. inversion HN as [|? ? HI]; subst. exfalso. apply HI. simpl. auto.
  - rewrite IHPermutation1, IHPermutation2; auto. eapply Permutation_NoDup; [apply perm_keys; eauto|auto].
Qed.

(** ** Lists of optional texts *)
Lemma all_some_iff {A B} (f : A -> option B) l : forall xs, all_some (map f l) = Some xs <-> Forall2 (fun a x => f a = Some x) l xs.
Proof.
  induction l as [|a l IH]; intro xs; simpl.
  - split; [intro H; injection H as <-; constructor|inversion 1; auto].
  - destruct (f a) as [b|] eqn:E.
    + destruct (all_some (map f l)) as [ys|] eqn:E2; simpl.
      * split.
        -- intro H. injection H as <-. constructor; auto. apply IH; auto.
        -- inversion 1; subst. pose proof (proj2 (IH _) H4) as E3. injection E3 as ->. congruence.
      * split; [discriminate|]. inversion 1; subst. pose proof (proj2 (IH _) H4). discriminate.
    + split; [discriminate|]. inversion 1; subst. congruence.
Qed.
Lemma all_some_none {A B} (f : A -> option B) l : all_some (map f l) = None <-> Exists (fun a => f a = None) l.
Proof.
  induction l as [|a l IH]; simpl.
  - split; [discriminate|inversion 1].
  - rewrite Exists_cons. destruct (f a) eqn:E.
    + destruct (all_some (map f l)) as [ys|]; simpl.
      * split; [discriminate|]. intros [H|H]; [discriminate|]. apply IH in H. discriminate.
      * split; auto. intros _. right. apply IH. auto.
    + tauto.
Qed.

(** ** Splitting texts *)
Lemma avoids_app cs a b : avoids cs (a ++ b) <-> avoids cs a /\ avoids cs b.
Proof. apply all_chars_app. Qed.
Lemma avoids_cons cs c s : avoids cs (String c s) <-> ~ In c cs /\ avoids cs s.
Proof. reflexivity. Qed.
Lemma cut_at c cs u v a b : In c cs -> avoids cs u -> avoids cs v -> u ++ String c a = v ++ String c b -> u = v /\ a = b.
Proof.
  intro HC. revert v. induction u as [|x u IH]; intros [|y v] HU HV E; simpl in E.
  - injection E; auto.
  - injection E as -> E. destruct HV. tauto.
  - injection E as -> E. destruct HU. tauto.
  - injection E as -> E. destruct HU, HV. destruct (IH v) as [-> ->]; auto.
Qed.
Lemma app_compare a : forall b x y, a ++ x = b ++ y -> (exists u, b = a ++ u /\ x = u ++ y) \/ (exists u, a = b ++ u /\ y = u ++ x).
Proof.
  induction a as [|c a IH]; intros b x y E.
  - left. exists b. auto.
  - destruct b as [|d b].
    + right. exists (String c a). auto.
    + simpl in E. injection E as -> E. destruct (IH _ _ _ E) as [(u & -> & ->)|(u & -> & ->)]; [left|right]; exists u; auto.
Qed.
Lemma app_inj_r a : forall b c, a ++ c = b ++ c -> a = b.
Proof.
  intros b c E. destruct (app_compare _ _ _ _ E) as [(u & -> & H)|(u & -> & H)];
    (assert (EL := f_equal String.length H); rewrite length_append in EL; destruct u; [rewrite append_nil_r; auto|simpl in EL; lia]).
Qed.
Lemma method_plain w k : method_is w k -> avoids ["-"; ">"]%char w.
Proof.
  unfold method_is, method_words. intro H. simpl in H.
  repeat (destruct H as [H|H]; [injection H as <- _; repeat split; simpl; intuition discriminate|]). destruct H.
Qed.

Lemma three_parts a1 m1 v1 a2 m2 v2 k1 k2 : method_is m1 k1 -> method_is m2 k2 -> no_method_part a1 -> no_method_part a2 ->
  a1 ++ "-" ++ m1 ++ "-" ++ v1 = a2 ++ "-" ++ m2 ++ "-" ++ v2 -> a1 = a2 /\ m1 = m2 /\ v1 = v2.
Proof.
  assert (HX : forall a1 m1 v1 u a2 m2 v2 k1, method_is m1 k1 -> no_method_part a2 -> a2 = a1 ++ u -> u <> "" ->
    "-" ++ m1 ++ "-" ++ v1 = u ++ "-" ++ m2 ++ "-" ++ v2 -> False).
  { clear. intros a1 m1 v1 u a2 m2 v2 k1 HM HN EA HU E. destruct u as [|c u]; [congruence|]. simpl in E. injection E as <- E.
    destruct (app_compare _ _ _ _ E) as [(w & -> & H)|(w & -> & H)].
    - destruct (HN _ _ _ _ HM EA) as [N1 N2]. destruct w as [|d w]; [congruence|]. simpl in H. injection H as <- H.
      apply N2. exists w. auto.
    - destruct w as [|d w].
      + rewrite append_nil_r in HM. destruct (HN k1 u a1 "" HM) as [N _]; [rewrite append_nil_r; auto|congruence].
      + simpl in H. injection H as <- H. pose proof (method_plain _ _ HM) as HP. apply avoids_app in HP. destruct HP as [_ [HP _]].
        apply HP. simpl. auto. }
  intros HM1 HM2 HN1 HN2 E. destruct (app_compare _ _ _ _ E) as [(u & EA & H)|(u & EA & H)].
  - destruct u as [|c u]; [|exfalso; exact (HX a1 m1 v1 (String c u) a2 m2 v2 k1 HM1 HN2 EA ltac:(discriminate) H)].
    rewrite append_nil_r in EA. simpl in H. injection H as H.
    destruct (cut_at "-" ["-"; ">"]%char _ _ _ _ (or_introl eq_refl) (method_plain _ _ HM1) (method_plain _ _ HM2) H). auto.
  - destruct u as [|c u]; [|exfalso; exact (HX a2 m2 v2 (String c u) a1 m1 v1 k2 HM2 HN1 EA ltac:(discriminate) H)].
    rewrite append_nil_r in EA. simpl in H. injection H as H.
    destruct (cut_at "-" ["-"; ">"]%char _ _ _ _ (or_introl eq_refl) (method_plain _ _ HM1) (method_plain _ _ HM2) (eq_sym H)). auto.
Qed.

Lemma join_words ws : forall vs, Forall (avoids [" "]%char) ws -> Forall (avoids [" "]%char) vs ->
  Forall (fun w => w <> "") ws -> Forall (fun w => w <> "") vs -> join " " ws = join " " vs -> ws = vs.
Proof.
  induction ws as [|w ws IH]; intros vs HW HV NW NV E.
  - destruct vs as [|v [|v2 vs]]; auto.
    + simpl in E. inversion NV; congruence.
    + cbn [join] in E. inversion NV; subst. destruct v; [congruence|discriminate].
  - inversion HW as [|? ? HW1 HW2]; inversion NW as [|? ? NW1 NW2]; subst.
    destruct vs as [|v vs].
    + destruct ws; cbn [join] in E; [congruence|]. destruct w; [congruence|discriminate].
    + inversion HV as [|? ? HV1 HV2]; inversion NV as [|? ? NV1 NV2]; subst.
      assert (EQ : w = v /\ (ws = [] <-> vs = []) /\ join " " ws = join " " vs).
      { destruct ws as [|w2 ws], vs as [|v2 vs]; cbn [join] in E.
        - subst. tauto.
        - exfalso. subst w. apply avoids_app in HW1. destruct HW1 as [_ [HW1 _]]. apply HW1. simpl; auto.
        - exfalso. subst v. apply avoids_app in HV1. destruct HV1 as [_ [HV1 _]]. apply HV1. simpl; auto.
        - destruct (cut_at " " [" "]%char _ _ _ _ (or_introl eq_refl) HW1 HV1 E) as [-> E']. split; auto. split; [split; discriminate|auto]. }
      destruct EQ as (-> & _ & EQ). f_equal. apply IH; auto.
Qed.

Section WithLib.
Variable L : Lib.
Notation node := (node L).
Notation text := (node_string L).

Lemma and_or_perm sep xs ys : Permutation xs ys -> and_or_string sep xs = and_or_string sep ys.
Proof.
  intro HP. pose proof (Permutation_length HP) as EL. unfold and_or_string.
  destruct xs as [|x [|x2 xs]].
  - apply Permutation_nil in HP. subst; auto.
  - apply Permutation_length_1_inv in HP. subst; auto.
  - destruct ys as [|y [|y2 ys]]; try discriminate. rewrite (sort_strings_perm _ _ HP). auto.
Qed.
Lemma children_perm (ns ns' : list node) sep : Permutation ns ns' ->
  option_map (and_or_string sep) (all_some (map text ns)) = option_map (and_or_string sep) (all_some (map text ns')).
Proof.
  intro HP. destruct (all_some (map text ns)) as [xs|] eqn:E.
  - apply all_some_iff in E. destruct (Permutation_Forall2 HP E) as (ys & HP' & E'). apply all_some_iff in E'. rewrite E'.
    simpl. rewrite (and_or_perm _ _ _ HP'). auto.
  - apply all_some_none in E. assert (E' : all_some (map text ns') = None).
    { apply all_some_none. apply Exists_exists in E. destruct E as (x & Hx & E). apply Exists_exists. exists x. split; auto.
      eapply Permutation_in; eauto. }
    rewrite E'. auto.
Qed.

(** ** C34 *)
Theorem shuffled_text n : forall n', shuffled n n' -> text n = text n'.
Proof.
  induction n using node_ind'; intros n' HS; inversion HS as [|? ns' ? HF HPm|? ns' ? HF HPm| |]; subst; auto; cbn [node_string].
  1, 2: rewrite <- (children_perm _ _ _ HPm); f_equal; f_equal; clear HPm HS;
    induction HF as [|a b l l' Hab HF IH]; auto; inversion H; subst; cbn [map]; rewrite IH by auto; f_equal; auto.
  - rewrite (IHn n'0); auto.
  - rewrite (IHn n'0); auto.
Qed.

(** ** C35 *)
Lemma shown_iff original now s : shown original now s <-> s = original_or original now.
Proof.
  unfold shown, original_or. destruct (String.eqb_spec original "") as [->|N].
  - split; [intros [[? _]|[_ ?]]; congruence|auto].
  - split; [intros [[_ ?]|[? _]]; congruence|auto].
Qed.
Lemma shows_string c att method value : shows L c att method value -> cond_string L c = "<" ++ att ++ "-" ++ method ++ "-" ++ value ++ ">".
Proof. unfold shows, cond_string. rewrite !shown_iff. intros (-> & -> & ->). auto. Qed.
Lemma shows_self c : shows L c (original_or (og_attr (c_orig c)) (c_attr c)) (original_or (og_method (c_orig c)) (c_method c))
  (original_or (og_value (c_orig c)) (c_value c)).
Proof. unfold shows. rewrite !shown_iff. auto. Qed.

Definition returns_fmt (m : list (string * string)) : string :=
  "map[" ++ join " " (map (fun kv => fst kv ++ ":" ++ snd kv) (sort_keys m)) ++ "]".
Lemma quant_shown q a s p m : shows_quant L a p m ->
  quant_string L q a s = "[" ++ (match q with QAny => "ANY" | QAll => "ALL" end) ++ "<" ++ p ++ ";" ++ returns_fmt m ++ ">:" ++ s ++ "]".
Proof.
  intros (HP & HR & _). apply shown_iff in HP. subst. unfold quant_string, strings_fmt, returns_fmt, orig_ret.
  unfold shows_returns in HR. destruct (r_orig (a_ret a)) as [[|x l]|]; subst; destruct (r_paths (a_ret a)); auto.
Qed.

Theorem alike_text n n' : alike L n n' -> text n = text n'.
Proof.
  induction 1; cbn [node_string]; auto; try congruence.
  - rewrite (shows_string _ _ _ _ H), (shows_string _ _ _ _ H0). auto.
  - apply children_perm; auto.
  - apply children_perm; auto.
  - rewrite !map_app. cbn [map]. rewrite IHalike. auto.
  - rewrite !map_app. cbn [map]. rewrite IHalike. auto.
  - rewrite IHalike. destruct (text n') as [s|]; auto. cbn [option_map].
    rewrite (quant_shown _ _ _ _ _ H), (quant_shown _ _ _ _ _ H0). destruct H as (_ & _ & HN).
    unfold returns_fmt. rewrite (sort_keys_perm _ _ H1 HN). auto.
  - cbn [map all_some]. destruct (text n); auto.
  - cbn [map all_some]. destruct (text n); auto.
Qed.

(** The return values of ANY/ALL can be read off the text. *)
Lemma returns_read m1 m2 : 
  Forall (fun e => avoids [":"; " "; ">"]%char (fst e) /\ avoids [" "; ">"]%char (snd e)) m1 ->
  Forall (fun e => avoids [":"; " "; ">"]%char (fst e) /\ avoids [" "; ">"]%char (snd e)) m2 ->
  returns_fmt m1 = returns_fmt m2 -> Permutation m1 m2.
Proof.
  intros H1 H2 E. unfold returns_fmt in E. apply append_inj_l, app_inj_r in E.
  assert (HS : sort_keys m1 = sort_keys m2).
  { assert (HP : forall m, Forall (fun e => avoids [":"; " "; ">"]%char (fst e) /\ avoids [" "; ">"]%char (snd e)) m ->
      Forall (fun e : string * string => avoids [":"; " "; ">"]%char (fst e) /\ avoids [" "; ">"]%char (snd e)) (sort_keys m)).
    { intros m H. eapply Permutation_Forall; [apply Permutation_sym, sort_perm|auto]. }
    pose proof (HP _ H1) as H1'. pose proof (HP _ H2) as H2'. clear HP. revert E H1' H2'.
    generalize (sort_keys m1) (sort_keys m2). intros l1 l2 E H1' H2'.
    assert (HA : forall l : list (string * string), Forall (fun e => avoids [":"; " "; ">"]%char (fst e) /\ avoids [" "; ">"]%char (snd e)) l ->
      Forall (avoids [" "]%char) (map (fun kv => fst kv ++ ":" ++ snd kv) l) /\ Forall (fun w => w <> "") (map (fun kv => fst kv ++ ":" ++ snd kv) l)).
    { clear. induction l as [|[k v] l IH]; intro H; [split; constructor|]. inversion H as [|? ? [HK HV] HL]; subst. simpl in HK, HV.
      destruct (IH HL) as [I1 I2]. cbn [map fst snd]. split; constructor; auto.
      - apply avoids_app. split; [eapply all_chars_impl; [|exact HK]; simpl; intuition|]. apply avoids_app.
        split; [repeat split; simpl; intuition discriminate|]. eapply all_chars_impl; [|exact HV]; simpl; intuition.
      - destruct k; discriminate. }
    destruct (HA _ H1') as [A1 N1]. destruct (HA _ H2') as [A2 N2]. apply join_words in E; auto. clear A1 N1 A2 N2.
    revert l2 E H2'. induction l1 as [|[k v] l1 IH]; intros [|[k2 v2] l2] E H2'; try discriminate; auto.
    cbn [map fst snd] in E. injection E as E1 E2. inversion H1' as [|? ? [HK HV] HL]; inversion H2' as [|? ? [HK2 HV2] HL2]; subst. simpl in *.
    destruct (cut_at ":" [":"; " "; ">"]%char _ _ _ _ (or_introl eq_refl) HK HK2 E1) as [-> ->]. rewrite (IH HL l2); auto. }
  eapply Permutation_trans; [apply Permutation_sym, sort_perm|]. rewrite HS. apply sort_perm.
Qed.
Lemma returns_avoid m : Forall (fun e => avoids [":"; " "; ">"]%char (fst e) /\ avoids [" "; ">"]%char (snd e)) m -> avoids [">"]%char (returns_fmt m).
Proof.
  intro H. unfold returns_fmt. apply avoids_app. split; [repeat split; simpl; intuition discriminate|]. apply avoids_app.
  split; [|repeat split; simpl; intuition discriminate]. rewrite Leaf_proofs.join_concat. apply concat_chars; [|repeat split; simpl; intuition discriminate].
  assert (H' : Forall (fun e => avoids [":"; " "; ">"]%char (fst e) /\ avoids [" "; ">"]%char (snd e)) (sort_keys m)).
  { eapply Permutation_Forall; [apply Permutation_sym, sort_perm|auto]. }
  clear H. induction (sort_keys m) as [|[k v] l IH]; constructor; inversion H' as [|? ? [HK HV] HL]; subst; auto. simpl in HK, HV. cbn [fst snd].
  apply avoids_app. split; [eapply all_chars_impl; [|exact HK]; simpl; intuition|]. apply avoids_app.
  split; [repeat split; simpl; intuition discriminate|]. eapply all_chars_impl; [|exact HV]; simpl; intuition.
Qed.

(** AND/OR around single children removed *)
Fixpoint core (n : node) : node :=
  match n with
  | NAnd [x] | NOr [x] => core x
  | _ => n
  end.
Definition several (n : node) : Prop :=
  match n with NAnd [_] | NOr [_] => False | _ => True end.
Lemma core_facts n : legible L n -> alike L n (core n) /\ legible L (core n) /\ several (core n).
Proof.
  induction n using node_ind'; intro HL; try (split; [apply al_same|split; [exact HL|exact I]]).
  - destruct ns as [|x [|y ns]]; [split; [apply al_same|split; [exact HL|exact I]]| |split; [apply al_same|split; [exact HL|exact I]]].
    cbn [core]. inversion H as [|? ? HX _]; subst. inversion HL as [? _ HF| | | | | |]; subst. inversion HF; subst.
    destruct (HX H2) as (A & B & C). split; [eapply al_step; [apply al_and_one|exact A]|auto].
  - destruct ns as [|x [|y ns]]; [split; [apply al_same|split; [exact HL|exact I]]| |split; [apply al_same|split; [exact HL|exact I]]].
    cbn [core]. inversion H as [|? ? HX _]; subst. inversion HL as [|? _ HF| | | | |]; subst. inversion HF; subst.
    destruct (HX H2) as (A & B & C). split; [eapply al_step; [apply al_or_one|exact A]|auto].
Qed.

Lemma alike_all_and l l' : Forall2 (alike L) l l' -> forall pre, alike L (NAnd (pre ++ l)) (NAnd (pre ++ l')).
Proof.
  induction 1 as [|a b l l' H HF IH]; intro pre; [apply al_same|].
  eapply al_step; [apply al_and_at, H|]. specialize (IH (pre ++ [b])%list). rewrite <- !app_assoc in IH. exact IH.
Qed.
Lemma alike_all_or l l' : Forall2 (alike L) l l' -> forall pre, alike L (NOr (pre ++ l)) (NOr (pre ++ l')).
Proof.
  induction 1 as [|a b l l' H HF IH]; intro pre; [apply al_same|].
  eapply al_step; [apply al_or_at, H|]. specialize (IH (pre ++ [b])%list). rewrite <- !app_assoc in IH. exact IH.
Qed.

Definition readable (k : nat) : Prop := forall n1 n2 s1 s2 r1 r2, legible L n1 -> legible L n2 -> text n1 = Some s1 -> text n2 = Some s2 ->
  (String.length s1 < k)%nat -> s1 ++ r1 = s2 ++ r2 -> s1 = s2 /\ r1 = r2 /\ alike L n1 n2.

Lemma join_cons2 sep a b l : join sep (a :: b :: l) = a ++ sep ++ join sep (b :: l).
Proof. reflexivity. Qed.

(** a list of texts between parentheses; the separators are " && " or " || " *)
Lemma read_children k : readable k -> forall c1 c2 l1 l2 S1 S2 r1 r2,
  Forall2 (fun n s => legible L n /\ text n = Some s /\ (String.length s < k)%nat) l1 S1 ->
  Forall2 (fun n s => legible L n /\ text n = Some s) l2 S2 -> l1 <> [] -> l2 <> [] ->
  join (String " " (String c1 (String c1 " "))) S1 ++ String ")" r1 = join (String " " (String c2 (String c2 " "))) S2 ++ String ")" r2 ->
  S1 = S2 /\ r1 = r2 /\ Forall2 (alike L) l1 l2 /\ ((2 <= List.length l1)%nat -> c1 = c2).
Proof.
  intro HK. intros c1 c2 l1. induction l1 as [|n1 l1 IH]; intros l2 S1 S2 r1 r2 H1 H2 N1 N2 E; [congruence|].
  inversion H1 as [|? s1 ? S1' (HL1 & HT1 & HB1) HF1]; subst. destruct l2 as [|n2 l2]; [congruence|].
  inversion H2 as [|? s2 ? S2' (HL2 & HT2) HF2]; subst.
  inversion HF1 as [|n1' s1' l1' S1'' H1' HF1']; subst; inversion HF2 as [|n2' s2' l2' S2'' H2' HF2']; subst.
  - cbn [join] in E. destruct (HK n1 n2 s1 s2 _ _ HL1 HL2 HT1 HT2 HB1 E) as (-> & E' & HA). injection E' as ->.
    repeat split; auto. simpl; lia.
  - rewrite join_cons2 in E. change (join (String " " (String c1 (String c1 " "))) [s1]) with s1 in E. rewrite !append_assoc in E.
    destruct (HK n1 n2 s1 s2 _ _ HL1 HL2 HT1 HT2 HB1 E) as (-> & E' & HA). discriminate.
  - rewrite join_cons2 in E. change (join (String " " (String c2 (String c2 " "))) [s2]) with s2 in E. rewrite !append_assoc in E.
    destruct (HK n1 n2 s1 s2 _ _ HL1 HL2 HT1 HT2 HB1 E) as (-> & E' & HA). discriminate.
  - rewrite !join_cons2, !append_assoc in E.
    destruct (HK n1 n2 s1 s2 _ _ HL1 HL2 HT1 HT2 HB1 E) as (-> & E' & HA).
    cbn [append] in E'. injection E' as EC _ E'.
    destruct (IH _ _ _ _ _ HF1 HF2 ltac:(discriminate) ltac:(discriminate) E') as (ES & ER & HFA & _).
    rewrite ES. repeat split; auto.
Qed.

Lemma sorted_children (ns : list node) xs : Forall (legible L) ns -> Forall2 (fun n x => text n = Some x) ns xs ->
  exists ns', Permutation ns ns' /\ Forall2 (fun n s => legible L n /\ text n = Some s) ns' (sort_strings xs).
Proof.
  intros HL HF. assert (HF' : Forall2 (fun x n => legible L n /\ text n = Some x) xs ns).
  { clear -HL HF. induction HF; constructor; inversion HL; subst; auto. }
  destruct (Permutation_Forall2 (Permutation_sym (sort_strings_same xs)) HF') as (ns' & HP & H). exists ns'. split; auto.
  clear -H. induction H; constructor; auto.
Qed.

Lemma join_length_le sep l : forall x, In x l -> (String.length x <= String.length (join sep l))%nat.
Proof.
  induction l as [|a l IH]; intros x []; subst.
  - destruct l; [simpl; lia|]. rewrite join_cons2, length_append. lia.
  - destruct l as [|b l]; [destruct H|]. rewrite join_cons2, !length_append. specialize (IH x H). lia.
Qed.

(** AND and OR with at least two children *)
Definition sep_of (and : bool) : string := if and then " && " else " || ".
Definition branch (and : bool) (ns : list node) : node := if and then NAnd ns else NOr ns.
Lemma branch_text and ns s : legible L (branch and ns) -> several (branch and ns) -> text (branch and ns) = Some s ->
  (2 <= List.length ns)%nat /\ exists ns' xs, Permutation ns ns' /\ Forall2 (fun n s => legible L n /\ text n = Some s) ns' xs /\
    s = "(" ++ join (sep_of and) xs ++ ")".
Proof.
  intros HL HS HT. assert (HN : ns <> [] /\ Forall (legible L) ns) by (destruct and; inversion HL; auto). destruct HN as [HN HF].
  destruct ns as [|a [|b ns]]; [congruence|destruct and; destruct HS|]. split; [simpl; lia|].
  assert (HT' : exists xs, all_some (map text (a :: b :: ns)) = Some xs /\ s = and_or_string (sep_of and) xs).
  { destruct and; unfold branch, sep_of in *; cbn [node_string] in HT;
      destruct (all_some (map text (a :: b :: ns))) as [xs|]; try discriminate; exists xs; cbn [option_map] in HT; injection HT as <-; auto. }
  destruct HT' as (xs & HX & ->). apply all_some_iff in HX. destruct (sorted_children _ _ HF HX) as (ns' & HP & HF').
  exists ns', (sort_strings xs). repeat split; auto. inversion HX as [|? x1 ? ? _ HX1]; subst. inversion HX1; subst. reflexivity.
Qed.
Lemma alike_branch and ns ns' : Permutation ns ns' -> alike L (branch and ns) (branch and ns').
Proof. destruct and; [apply al_and|apply al_or]. Qed.
Lemma alike_branch_all and ns ns' : Forall2 (alike L) ns ns' -> alike L (branch and ns) (branch and ns').
Proof. destruct and; intro H; [apply (alike_all_and _ _ H [])|apply (alike_all_or _ _ H [])]. Qed.

Lemma read_branch k and1 and2 ns1 ns2 s1 s2 r1 r2 : readable k ->
  legible L (branch and1 ns1) -> several (branch and1 ns1) -> text (branch and1 ns1) = Some s1 ->
  legible L (branch and2 ns2) -> several (branch and2 ns2) -> text (branch and2 ns2) = Some s2 ->
  (String.length s1 < S k)%nat -> s1 ++ r1 = s2 ++ r2 -> s1 = s2 /\ r1 = r2 /\ alike L (branch and1 ns1) (branch and2 ns2).
Proof.
  intros HK HL1 HS1 HT1 HL2 HS2 HT2 HB E.
  destruct (branch_text _ _ _ HL1 HS1 HT1) as (N1 & l1 & S1 & HP1 & HF1 & ->).
  destruct (branch_text _ _ _ HL2 HS2 HT2) as (N2 & l2 & S2 & HP2 & HF2 & ->).
  pose proof (Permutation_length HP1) as EL1. pose proof (Permutation_length HP2) as EL2.
  rewrite !append_assoc in E. cbn [append] in E. injection E as E.
  assert (HF1' : Forall2 (fun n s => legible L n /\ text n = Some s /\ (String.length s < k)%nat) l1 S1).
  { assert (HI : forall x, In x S1 -> (String.length x < k)%nat).
    { intros x Hx. pose proof (join_length_le (sep_of and1) S1 x Hx). cbn [append String.length] in HB. rewrite length_append in HB.
      cbn [String.length] in HB. lia. }
    clear -HF1 HI. induction HF1; constructor; [|apply IHHF1; intros; apply HI; simpl; auto].
    destruct H. repeat split; auto. apply HI. simpl. auto. }
  assert (EE : exists c1 c2, sep_of and1 = String " " (String c1 (String c1 " ")) /\ sep_of and2 = String " " (String c2 (String c2 " ")) /\ (c1 = c2 -> and1 = and2)).
  { destruct and1, and2; do 2 eexists; repeat split; intro; auto; discriminate. }
  destruct EE as (c1 & c2 & E1 & E2 & EC). rewrite E1, E2 in E.
  destruct (read_children k HK c1 c2 l1 l2 S1 S2 r1 r2) as (-> & -> & HA & HC); auto.
  { destruct l1; [simpl in EL1; lia|discriminate]. } { destruct l2; [simpl in EL2; lia|discriminate]. }
  rewrite E1, E2. rewrite (HC ltac:(lia)) in *. split; auto. split; auto. rewrite <- (EC eq_refl).
  eapply al_step; [apply alike_branch, HP1|]. eapply al_step; [apply alike_branch_all, HA|]. apply al_back, alike_branch. auto.
Qed.

Lemma read_cond c d s1 s2 r1 r2 : legible L (NCond c) -> legible L (NCond d) -> text (NCond c) = Some s1 -> text (NCond d) = Some s2 ->
  s1 ++ r1 = s2 ++ r2 -> s1 = s2 /\ r1 = r2 /\ alike L (NCond c) (NCond d).
Proof.
  intros HC HD T1 T2 E. inversion HC as [| | | | | |? a1 m1 v1 k1 HS1 HM1 HA1 HV1 HN1]; inversion HD as [| | | | | |? a2 m2 v2 k2 HS2 HM2 HA2 HV2 HN2]; subst.
  cbn [node_string] in *. rewrite (shows_string _ _ _ _ HS1) in T1. rewrite (shows_string _ _ _ _ HS2) in T2.
  injection T1 as <-. injection T2 as <-. assert (E' : (a1 ++ "-" ++ m1 ++ "-" ++ v1) ++ String ">" r1 = (a2 ++ "-" ++ m2 ++ "-" ++ v2) ++ String ">" r2).
  { repeat first [rewrite append_assoc in E | progress cbn [append] in E]. repeat first [rewrite append_assoc | progress cbn [append]]. injection E as E. exact E. }
  assert (HP : forall a m v k, avoids [">"]%char a -> avoids [">"]%char v -> method_is m k -> avoids [">"]%char (a ++ "-" ++ m ++ "-" ++ v)).
  { clear. intros a m v k HA HV HM. apply avoids_app; split; auto. apply avoids_app; split; [repeat split; simpl; intuition discriminate|].
    apply avoids_app; split; [eapply all_chars_impl; [|exact (method_plain _ _ HM)]; simpl; intuition|].
    apply avoids_app; split; [repeat split; simpl; intuition discriminate|auto]. }
  destruct (cut_at ">" [">"]%char _ _ _ _ (or_introl eq_refl) (HP _ _ _ _ HA1 HV1 HM1) (HP _ _ _ _ HA2 HV2 HM2) E') as [E3 ->].
  destruct (three_parts _ _ _ _ _ _ _ _ HM1 HM2 HN1 HN2 E3) as (-> & -> & ->). repeat split; auto. eapply al_cond; eauto.
Qed.

Lemma read_quant k q1 q2 a1 a2 n1 n2 s1 s2 r1 r2 : readable k ->
  legible L (NQuant q1 a1 n1) -> legible L (NQuant q2 a2 n2) -> text (NQuant q1 a1 n1) = Some s1 -> text (NQuant q2 a2 n2) = Some s2 ->
  (String.length s1 < S k)%nat -> s1 ++ r1 = s2 ++ r2 -> s1 = s2 /\ r1 = r2 /\ alike L (NQuant q1 a1 n1) (NQuant q2 a2 n2).
Proof.
  intros HK H1 H2 T1 T2 HB E.
  inversion H1 as [| | |? ? ? p1 m1 HS1 HP1 HM1 HL1| | |]; inversion H2 as [| | |? ? ? p2 m2 HS2 HP2 HM2 HL2| | |]; subst.
  cbn [node_string] in T1, T2. destruct (text n1) as [t1|] eqn:X1; [|discriminate]. destruct (text n2) as [t2|] eqn:X2; [|discriminate].
  cbn [option_map] in *. injection T1 as <-. injection T2 as <-. rewrite (quant_shown _ _ _ _ _ HS1) in *. rewrite (quant_shown _ _ _ _ _ HS2) in *.
  rewrite !append_assoc in E. cbn [append] in E. injection E as E.
  assert (EQ : q1 = q2 /\ p1 ++ ";" ++ (returns_fmt m1 ++ ">:" ++ t1 ++ "]") ++ r1 = p2 ++ ";" ++ (returns_fmt m2 ++ ">:" ++ t2 ++ "]") ++ r2).
  { rewrite !append_assoc. destruct q1, q2; cbn [append] in E; injection E; try discriminate; auto. }
  clear E. destruct EQ as [-> E]. cbn [append] in E.
  destruct (cut_at ";" [";"]%char _ _ _ _ (or_introl eq_refl) HP1 HP2 E) as [-> E2]. rewrite !append_assoc in E2. cbn [append] in E2.
  destruct (cut_at ">" [">"]%char _ _ _ _ (or_introl eq_refl) (returns_avoid _ HM1) (returns_avoid _ HM2) E2) as [E3 E4].
  injection E4 as E4. rewrite !append_assoc in E4.
  assert (HB' : (String.length t1 < k)%nat).
  { repeat first [rewrite length_append in HB | progress cbn [append String.length] in HB]. lia. }
  destruct (HK n1 n2 t1 t2 _ _ HL1 HL2 X1 X2 HB' E4) as (-> & E5 & HA).
  cbn [append] in E5. injection E5 as ->. rewrite E3. repeat split; auto.
  eapply al_quant; [exact HS1|exact HS2|apply returns_read; auto|auto].
Qed.

Theorem text_read k : readable k.
Proof.
  induction k as [|k IH]; intros n1 n2 s1 s2 r1 r2 HL1 HL2 HT1 HT2 HB E; [lia|].
  destruct (core_facts _ HL1) as (A1 & B1 & C1). destruct (core_facts _ HL2) as (A2 & B2 & C2).
  rewrite (alike_text _ _ A1) in HT1. rewrite (alike_text _ _ A2) in HT2.
  enough (H : s1 = s2 /\ r1 = r2 /\ alike L (core n1) (core n2)).
  { destruct H as (-> & -> & H). repeat split; auto. eapply al_step; [exact A1|]. eapply al_step; [exact H|]. apply al_back; auto. }
  revert HT1 HT2 B1 B2 C1 C2 HB E. generalize (core n1) (core n2). clear n1 n2 HL1 HL2 A1 A2. intros n1 n2 HT1 HT2 HL1 HL2 C1 C2 HB E.
  assert (HH : forall n s, legible L n -> several n -> text n = Some s ->
    match n with
    | NAnd _ | NOr _ => exists x, s = String "(" x
    | NNot _ => exists x, s = String "!" (String "(" x)
    | NQuant _ _ _ => exists x, s = String "[" x
    | NCond _ => exists x, s = String "<" x
    | NTrue => s = "true" | NFalse => s = "false" | NNil => False
    end).
  { clear. intros n s HL HS HT. destruct n; cbn [node_string] in HT; try discriminate; try (injection HT as <-; eauto).
    - destruct (branch_text true ns s HL HS HT) as (_ & ? & ? & _ & _ & ->). eexists; reflexivity.
    - destruct (branch_text false ns s HL HS HT) as (_ & ? & ? & _ & _ & ->). eexists; reflexivity.
    - destruct (text n); [|discriminate]. cbn [option_map] in HT. injection HT as <-. eexists; reflexivity.
    - destruct (text n); [|discriminate]. cbn [option_map] in HT. injection HT as <-. unfold quant_string. eexists; reflexivity.
    - unfold cond_string. eexists; reflexivity. }
  pose proof (HH _ _ HL1 C1 HT1) as F1. pose proof (HH _ _ HL2 C2 HT2) as F2.
  destruct n1 as [ns1|ns1|n1|q1 a1 n1| | |c1|]; try contradiction; destruct n2 as [ns2|ns2|n2|q2 a2 n2| | |c2|]; try contradiction;
    try (exfalso; cbn beta iota in F1, F2; repeat match goal with H : exists _, _ |- _ => destruct H end; subst; discriminate E).
  - apply (read_branch k true true ns1 ns2); auto.
  - apply (read_branch k true false ns1 ns2); auto.
  - apply (read_branch k false true ns1 ns2); auto.
  - apply (read_branch k false false ns1 ns2); auto.
  - inversion HL1; inversion HL2; subst. cbn [node_string] in HT1, HT2. destruct (text n1) as [t1|] eqn:X1; [|discriminate].
    destruct (text n2) as [t2|] eqn:X2; [|discriminate]. cbn [option_map append] in HT1, HT2. injection HT1 as <-. injection HT2 as <-.
    cbn [append] in E. injection E as E. rewrite !append_assoc in E.
    assert (HB' : (String.length t1 < k)%nat).
    { cbn [append String.length] in HB. rewrite length_append in HB. cbn [String.length] in HB. lia. }
    match goal with A : legible L n1, B : legible L n2 |- _ => destruct (IH n1 n2 t1 t2 _ _ A B X1 X2 HB' E) as (-> & E5 & HA) end.
    cbn [append] in E5. injection E5 as ->. repeat split; auto. apply al_not. auto.
  - apply (read_quant k q1 q2 a1 a2 n1 n2); auto.
  - subst. apply append_inj_l in E. repeat split; auto. apply al_same.
  - subst. apply append_inj_l in E. repeat split; auto. apply al_same.
  - apply (read_cond c1 c2); auto.
Qed.

Theorem text_determines n1 n2 : legible L n1 -> legible L n2 -> (text n1 = text n2 <-> alike L n1 n2).
Proof.
  intros H1 H2. split; [|apply alike_text]. intro E.
  assert (HS : forall n, legible L n -> exists s, text n = Some s).
  { clear. induction n using node_ind'; intro HL; cbn [node_string]; eauto.
    - inversion HL; subst. destruct (all_some (map text ns)) as [xs|] eqn:E; [eexists; reflexivity|]. exfalso.
      apply all_some_none, Exists_exists in E. destruct E as (x & Hx & E). rewrite Forall_forall in *.
      destruct (H x Hx) as [s Hs]; auto. congruence.
    - inversion HL; subst. destruct (all_some (map text ns)) as [xs|] eqn:E; [eexists; reflexivity|]. exfalso.
      apply all_some_none, Exists_exists in E. destruct E as (x & Hx & E). rewrite Forall_forall in *.
      destruct (H x Hx) as [s Hs]; auto. congruence.
    - inversion HL; subst. destruct IHn as [s ->]; auto. eexists; reflexivity.
    - inversion HL; subst. destruct IHn as [s ->]; auto. eexists; reflexivity.
    - inversion HL. }
  destruct (HS _ H1) as [s Hs]. pose proof Hs as Hs2. rewrite E in Hs2.
  apply (text_read (S (String.length s)) n1 n2 s s "" "" H1 H2 Hs Hs2); auto.
Qed.
End WithLib.
