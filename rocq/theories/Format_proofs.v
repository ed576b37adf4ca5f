(** The texts of trees and rules are as written out in Spec_Format. *)
From Coq Require Import List String Ascii Bool Arith Permutation Sorted Lia.
From Verif Require Import Base GoStr GoStr_facts GoFloat Types Json StrUtils Validate Prepare Parse Marshal Strings
  Spec_Tree Spec_Glob Spec_Leaf Spec_Match Spec_Strings Spec_Json Glob_proofs Tree_proofs Print_proofs Copy_proofs Strings_proofs Hash_proofs Spec_Load Spec_Validate Spec_Grammar Grammar_proofs Grammar_tree Load_proofs Spec_Format.
Import ListNotations.
Open Scope string_scope.
Local Arguments String.prefix : simpl never.

Lemma leb_iff a : forall b, str_leb a b = true <-> in_order a b.
Proof.
  induction a as [|c a IH]; intros [|d b]; cbn [str_leb].
  - split; [|auto]. intros _. exists "", "", "". auto.
  - split; [|auto]. intros _. exists "", "", (String d b). auto.
  - split; [discriminate|]. intros (p & x & y & E1 & E2 & H). destruct p as [|e p]; [|discriminate E2]. cbn in E1, E2. subst. destruct H as [H|(? & ? & ? & ? & _ & H & _)]; discriminate H.
  - destruct (nat_of_ascii c <? nat_of_ascii d)%nat eqn:E1; [|destruct (nat_of_ascii d <? nat_of_ascii c)%nat eqn:E2].
    + split; [|auto]. intros _. apply Nat.ltb_lt in E1. exists "", (String c a), (String d b). repeat split; auto. right. exists c, a, d, b. auto.
    + split; [discriminate|]. apply Nat.ltb_lt in E2. intros ([|e p] & x & y & EA & EB & H); cbn in EA, EB.
      * subst. destruct H as [H|(c' & x' & d' & y' & HX & HY & H)]; [discriminate H|]. injection HX as <- <-. injection HY as <- <-. lia.
      * injection EA as -> _. injection EB as -> _. lia.
    + apply Nat.ltb_ge in E1, E2. assert (E : c = d) by (rewrite <- (ascii_nat_embedding c), <- (ascii_nat_embedding d); f_equal; lia). subst d. rewrite IH. split.
      * intros (p & x & y & -> & -> & H). exists (String c p), x, y. auto.
      * intros ([|e p] & x & y & EA & EB & H); cbn in EA, EB.
        -- subst. destruct H as [H|(c' & x' & d' & y' & HX & HY & H)]; [discriminate H|]. injection HX as <- <-. injection HY as <- <-. lia.
        -- injection EA as -> ->. injection EB as ->. exists p, x, y. auto.
Qed.
Lemma join_concat sep l : join sep l = String.concat sep l.
Proof. induction l as [|x [|y l] IH]; cbn [join String.concat] in *; try reflexivity. Qed.

Section Sorting.
Context {A : Type} (key : A -> string) (insert : A -> list A -> list A) (sort : list A -> list A).
Hypothesis insert_nil : forall x, insert x [] = [x].
Hypothesis insert_cons : forall x y l, insert x (y :: l) = if str_leb (key x) (key y) then x :: y :: l else y :: insert x l.
Hypothesis sort_nil : sort [] = [].
Hypothesis sort_cons : forall x l, sort (x :: l) = insert x (sort l).
Notation le := (fun a b => in_order (key a) (key b)).
Lemma insert_in x l a : In a (insert x l) -> a = x \/ In a l.
Proof.
  induction l as [|y l IH]; [rewrite insert_nil; cbn; intuition|]. rewrite insert_cons. destruct (str_leb _ _); cbn; intuition.
Qed.
Lemma in_order_total a b : str_leb a b = false -> in_order b a.
Proof. intro H. apply leb_iff. rewrite str_leb_eq in *. destruct (String.leb b a) eqn:E; auto. pose proof (leb_false _ _ H). congruence. Qed.
Lemma in_order_trans a b c : in_order a b -> in_order b c -> in_order a c.
Proof. rewrite <- !leb_iff, !str_leb_eq. apply leb_trans. Qed.
Lemma insert_sorted x l : StronglySorted le l -> StronglySorted le (insert x l).
Proof.
  induction 1 as [|y l HS IH HF]; [rewrite insert_nil; repeat constructor|]. rewrite insert_cons. destruct (str_leb (key x) (key y)) eqn:E.
  - apply leb_iff in E. repeat constructor; auto. eapply Forall_impl; [|exact HF]. cbn. intros z HZ. eapply in_order_trans; eauto.
  - constructor; auto. apply Forall_forall. intros z HZ. apply insert_in in HZ. destruct HZ as [->|HZ]; [apply in_order_total; auto|]. rewrite Forall_forall in HF. auto.
Qed.
Lemma sort_sorted l : StronglySorted le (sort l).
Proof. induction l; [rewrite sort_nil; constructor|rewrite sort_cons; apply insert_sorted; auto]. Qed.
Lemma sorted_fixed l : StronglySorted le l -> sort l = l.
Proof.
  induction 1 as [|y l HS IH HF]; [auto|]. rewrite sort_cons, IH. destruct l as [|z l]; [apply insert_nil|]. rewrite insert_cons. inversion HF; subst. apply leb_iff in H1. rewrite H1. reflexivity.
Qed.
End Sorting.
Lemma arranged_iff l l' : arranged l l' <-> l' = sort_strings l.
Proof.
  split.
  - intros [HP HS]. rewrite (sort_strings_perm _ _ HP). symmetry. apply (sorted_fixed (fun s => s) insert_str sort_strings); auto.
  - intros ->. split; [apply Permutation_sym, sort_strings_same|]. apply (sort_sorted (fun s => s) insert_str sort_strings); auto.
Qed.
Lemma insert_key_perm {A} (x : string * A) l : Permutation (insert_key x l) (x :: l).
Proof.
  induction l as [|y l IH]; [auto|]. cbn [insert_key]. destruct (str_leb _ _); auto.
  eapply Permutation_trans; [apply perm_skip, IH|apply perm_swap].
Qed.
Lemma sort_keys_same {A} (l : list (string * A)) : Permutation (sort_keys l) l.
Proof. induction l as [|x l IH]; [auto|]. cbn [sort_keys]. eapply Permutation_trans; [apply insert_key_perm|auto]. Qed.
Lemma map_text_iff m s : NoDup (keys m) -> map_text m s <-> s = returns_fmt m.
Proof.
  intro HN. unfold returns_fmt. rewrite join_concat. split.
  - intros (m' & HP & HS & ->). rewrite (sort_keys_perm _ _ HP HN). rewrite (sorted_fixed fst insert_key sort_keys); auto.
  - intros ->. exists (sort_keys m). split; [apply Permutation_sym, sort_keys_same|]. split; [apply (sort_sorted fst insert_key sort_keys); auto|reflexivity].
Qed.
Lemma small_iff x x' : in_small x x' <-> x' = to_lower x.
Proof.
  split.
  - intros [H1 H2]. apply lower_same in H1. rewrite H1. apply lower_id. exact H2.
  - intros ->. split; [apply lower_same; clear; induction x as [|c x IH]; [reflexivity|]|clear; induction x as [|c x IH]].
    + unfold to_lower in *. cbn. f_equal; [|exact IH]. destruct c as [[] [] [] [] [] [] [] []]; reflexivity.
    + exact I.
    + unfold to_lower in *. cbn [smap all_chars]. split; [|exact IH].
      assert (HB : ((65 <=? nat_of_ascii (lower_char c)) && (nat_of_ascii (lower_char c) <=? 90))%nat = false) by (destruct c as [[] [] [] [] [] [] [] []]; reflexivity).
      intros [H1 H2]. apply Nat.leb_le in H1, H2. rewrite H1, H2 in HB. discriminate HB.
Qed.

Section WithLib.
Variable L : Lib.
Notation node := (node L).
Lemma several_shape xs sep : List.length xs <> 1 -> and_or_string sep xs = "(" ++ String.concat sep (sort_strings xs) ++ ")".
Proof. destruct xs as [|x [|y xs]]; intro H; [| destruct H; reflexivity |]; unfold and_or_string; rewrite join_concat; reflexivity. Qed.
Lemma forall2_length {A B} (R : A -> B -> Prop) l l' : Forall2 R l l' -> List.length l = List.length l'.
Proof. induction 1; cbn; auto. Qed.
Lemma three_words a m v : "<" ++ a ++ "-" ++ m ++ "-" ++ v ++ ">" = "<" ++ String.concat "-" [a; m; v] ++ ">".
Proof. cbn [String.concat]. rewrite !append_assoc. reflexivity. Qed.
Lemma children_written (ns : list node) : Forall (fun n => one_each L n -> forall s, node_string L n = Some s <-> written L n s) ns -> Forall (one_each L) ns ->
  forall xs, Forall2 (fun n x => node_string L n = Some x) ns xs <-> Forall2 (written L) ns xs.
Proof.
  intros IH HN. induction ns as [|n ns IHn]; intro xs; inversion IH; inversion HN; subst; split; intro H; inversion H; subst; constructor;
    solve [match goal with HI : one_each L n -> _ |- _ => apply HI; auto end | apply IHn; auto].
Qed.
Theorem text_written n : one_each L n -> forall s, node_string L n = Some s <-> written L n s.
Proof.
  induction n as [ns IH|ns IH|n IH|q a n IH| | |c|] using node_ind'; intros HO s; cbn [node_string].
  - assert (HN : Forall (one_each L) ns) by (inversion HO as [? [H|[H|[H|[? H]]]]| | | |]; subst; try discriminate; auto).
    assert (HX : forall xs, Forall2 (fun n x => node_string L n = Some x) ns xs <-> Forall2 (written L) ns xs).
    { exact (children_written ns IH HN). }
    split.
    + destruct (all_some (map (node_string L) ns)) as [xs|] eqn:E; [|discriminate]. intro H. injection H as <-. apply all_some_iff, HX in E.
      destruct (Nat.eq_dec (List.length ns) 1) as [E1|N1].
      * destruct ns as [|n [|? ?]]; try discriminate E1. inversion E as [|? x ? ? H1 H2]; subst. inversion H2; subst. constructor. exact H1.
      * rewrite several_shape by (rewrite <- (forall2_length _ _ _ E); auto). econstructor; eauto. apply arranged_iff. reflexivity.
    + inversion 1 as [| | | |? ? HW| |? xs ys HL HF HA| | |]; subst.
      * cbn [map all_some]. assert (EX : Forall2 (written L) [n] [s]) by (constructor; auto). apply HX in EX. inversion EX as [|? ? ? ? EN _]; subst. rewrite EN. reflexivity.
      * pose proof HF as HF'. apply HX, all_some_iff in HF'. rewrite HF'. cbn [option_map]. rewrite several_shape by (rewrite <- (forall2_length _ _ _ HF); auto).
        apply arranged_iff in HA. subst. reflexivity.
  - assert (HN : Forall (one_each L) ns) by (inversion HO as [? [H|[H|[H|[? H]]]]| | | |]; subst; try discriminate; auto).
    assert (HX : forall xs, Forall2 (fun n x => node_string L n = Some x) ns xs <-> Forall2 (written L) ns xs).
    { exact (children_written ns IH HN). }
    split.
    + destruct (all_some (map (node_string L) ns)) as [xs|] eqn:E; [|discriminate]. intro H. injection H as <-. apply all_some_iff, HX in E.
      destruct (Nat.eq_dec (List.length ns) 1) as [E1|N1].
      * destruct ns as [|n [|? ?]]; try discriminate E1. inversion E as [|? x ? ? H1 H2]; subst. inversion H2; subst. constructor. exact H1.
      * rewrite several_shape by (rewrite <- (forall2_length _ _ _ E); auto). econstructor; eauto. apply arranged_iff. reflexivity.
    + inversion 1 as [| | | | |? ? HW| |? xs ys HL HF HA| |]; subst.
      * cbn [map all_some]. assert (EX : Forall2 (written L) [n] [s]) by (constructor; auto). apply HX in EX. inversion EX as [|? ? ? ? EN _]; subst. rewrite EN. reflexivity.
      * pose proof HF as HF'. apply HX, all_some_iff in HF'. rewrite HF'. cbn [option_map]. rewrite several_shape by (rewrite <- (forall2_length _ _ _ HF); auto).
        apply arranged_iff in HA. subst. reflexivity.
  - assert (HN : one_each L n) by (inversion HO as [? [H|[H|[H|[? H]]]]| | | |]; subst; try discriminate; auto). specialize (IH HN). split.
    + destruct (node_string L n) as [x|] eqn:E; [|discriminate]. intro H. injection H as <-. constructor. apply IH. reflexivity.
    + inversion 1; subst. apply IH in H1. rewrite H1. reflexivity.
  - assert (HN : one_each L n /\ exists p m, shows_quant L a p m) by (inversion HO as [? [H|[H|[H|[? H]]]]| | | |]; subst; try discriminate; eauto).
    destruct HN as [HN (p & m & HQ)]. specialize (IH HN). split.
    + destruct (node_string L n) as [x|] eqn:E; [|discriminate]. intro H. injection H as <-. rewrite (quant_shown L q a x p m HQ).
      pose proof (proj1 (IH x) eq_refl) as HW. assert (HM : map_text m (returns_fmt m)) by (apply map_text_iff; [apply HQ|reflexivity]).
      destruct q; [exact (wr_any L a n p m _ x HQ HM HW)|exact (wr_all L a n p m _ x HQ HM HW)].
    + inversion 1 as [| | | | | | | |? ? p' m' mt x HQ' HM HW|? ? p' m' mt x HQ' HM HW]; subst; apply IH in HW; rewrite HW; cbn [option_map]; f_equal;
        rewrite (quant_shown L _ a x p' m' HQ'); apply map_text_iff in HM; try apply HQ'; subst; reflexivity.
  - split; [intro H; injection H as <-; constructor|inversion 1; reflexivity].
  - split; [intro H; injection H as <-; constructor|inversion 1; reflexivity].
  - split.
    + intro H. injection H as <-. rewrite (shows_string L _ _ _ _ (shows_self L c)), three_words. exact (wr_cond L c _ _ _ (shows_self L c)).
    + inversion 1; subst. rewrite (shows_string L _ _ _ _ H1), three_words. reflexivity.
  - split; [discriminate|inversion 1].
Qed.
Theorem rule_text_written (r : rule L) s : (forall n, ru_tree r = Some n -> one_each L n) -> rule_string L r = Some s <-> rule_written L r s.
Proof.
  intro HO. unfold rule_string, rule_written, conditions_string. split.
  - intro H. exists (to_lower (ru_decision r)), (to_lower (ru_sender_type r)), (to_lower (ru_receiver_type r)), (to_lower (ru_operation r)), (to_lower (ru_protocol r)).
    destruct (ru_tree r) as [n|] eqn:ET.
    + destruct (node_string L n) as [c|] eqn:E; [|discriminate H]. injection H as <-. exists c. rewrite !small_iff. repeat split; auto; [apply text_written; auto|].
      cbn [String.concat]. repeat (progress cbn [append] || rewrite append_assoc). reflexivity.
    + injection H as <-. exists "no conditions". rewrite !small_iff. repeat split; auto. cbn [String.concat]. repeat (progress cbn [append] || rewrite append_assoc). reflexivity.
  - intros (d & st & rt & op & pr & c & H1 & H2 & H3 & H4 & H5 & HC & ->). rewrite small_iff in *. subst.
    destruct (ru_tree r) as [n|] eqn:ET; [apply text_written in HC; auto; rewrite HC|subst c]; cbn [option_map String.concat]; repeat (progress cbn [append] || rewrite append_assoc); reflexivity.
Qed.
(** ** Loaded trees *)
Lemma leaf_one_each c : one_each L (NCond c).
Proof. apply oe_leaf. eauto. Qed.
Lemma word_one_each kw f ns : In (kw, f) (list_words L) -> Forall (one_each L) ns -> one_each L (f ns).
Proof.
  intros [E|[E|[E|[]]]] H; injection E as <- <-; [apply oe_and; auto|apply oe_or; auto|]. apply oe_not. destruct ns as [|n ns _] using rev_ind; [apply oe_leaf; auto|].
  rewrite last_last. apply Forall_app in H. destruct H as [_ H]. inversion H; auto.
Qed.
Lemma quant_one_each q s es v r n : go_value v -> entries_of v es -> quant_returns L es r -> one_each L n -> one_each L (NQuant q (mkAA (replace_all s "jsonpath:" "") [] s r []) n).
Proof.
  intros HG HE HQ HN. assert (HS : exists m, shows_returns L r m /\ NoDup (keys m)).
  { destruct HQ as [_|w _ _|w ts r HI HW HT _ HR].
    - exists []. split; [reflexivity|constructor].
    - exists []. split; [reflexivity|constructor].
    - exists ts. unfold shows_returns. destruct HR as (HO & _). rewrite HO. split; [destruct ts; [contradiction|reflexivity]|].
      pose proof (map_entries_values _ _ HE HG) as HV. rewrite Forall_forall in HV. pose proof (map_entries_distinct _ _ HW (HV _ HI)) as HD. rewrite map_map in HD. exact HD. }
  destruct HS as (m & HS & HD). apply (oe_quant L q _ (original_or s (replace_all s "jsonpath:" "")) m); auto. split; [|split; auto]. apply shown_iff. reflexivity.
Qed.
Lemma map_one_each v kw n : go_value v -> is_map v -> (forall es k w kw n, entries_of v es -> In (k, w) es -> reads L kw w n -> one_each L n) -> reads L kw v n -> one_each L n.
Proof.
  intros HG HM HC HR. destruct HR as [v es ? ? ? ? ? HE|v es ? ? ? ? ? f HE HK HT HS HW|v k w n HE HI HR|v k w n HE HI HR|x n HX HR|l ns f HW HF|v es q s r inner HW HE HK HL HP HV HQ HA HI].
  - apply leaf_one_each.
  - eapply word_one_each; eauto. constructor; auto. apply leaf_one_each.
  - eapply HC; eauto. left. reflexivity.
  - apply oe_not. eapply HC; eauto. left. reflexivity.
  - destruct HM as [[? E]|[? E]]; discriminate E.
  - destruct HM as [[? E]|[? E]]; discriminate E.
  - apply (quant_one_each q s es v); auto. destruct HI as [(k & w & HI & _ & HR)|[-> _]]; [eapply HC; eauto|apply oe_leaf; auto].
Qed.
Lemma reads_one_each v : go_value v -> forall kw n, reads L kw v n -> one_each L n.
Proof.
  induction v as [| | | | |l IH|m IH|m IH] using iface_ind'; intros HG kw n HR.
  1-5: inversion HR as [? es ? ? ? ? ? HE|? es ? ? ? ? ? ? HE|? ? ? ? HE|? ? ? ? HE| | |? ? ? ? ? ? ? HE]; subst; destruct HE as [HE|HE]; discriminate HE.
  - assert (HC : forall x n, In x l -> reads L "" x n -> one_each L n).
    { intros x n' HI. inversion HG as [| | | | |? HF| |]; subst. rewrite Forall_forall in IH, HF. apply IH; auto. }
    inversion HR as [? es ? ? ? ? ? HE|? es ? ? ? ? ? ? HE|? ? ? ? HE|? ? ? ? HE|? ? ? HX|? ns f HW HF|? ? ? ? ? ? ? HE]; subst; try (destruct HE as [HE|HE]; discriminate HE).
    + apply (HC x); auto. left. reflexivity.
    + eapply word_one_each; [exact HW|]. clear -HC HF. induction HF as [|x y l ns HX HF IHF]; constructor; [apply (HC x); auto; left; reflexivity|]. apply IHF. intros. eapply HC; eauto. right. auto.
  - apply (map_one_each (GMapS m) kw n HG); auto; [left; eauto|]. intros es k w kw' n' HE HI. pose proof (map_entries_values _ _ HE HG) as HV. rewrite Forall_forall in IH, HV. specialize (HV _ HI).
    destruct HE as [HE|HE]; [|discriminate HE]. injection HE as <-. apply (IH _ HI HV).
  - apply (map_one_each (GMapI m) kw n HG); auto; [right; eauto|]. intros es k w kw' n' HE HI. pose proof (map_entries_values _ _ HE HG) as HV. rewrite Forall_forall in IH, HV. specialize (HV _ HI).
    destruct HE as [HE|HE]; [discriminate HE|]. injection HE as ->. apply (IH (GStr k, w)); auto. apply in_map_iff. exists (k, w). auto.
Qed.
End WithLib.
