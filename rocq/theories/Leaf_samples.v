(** Concrete conditions on concrete documents that meet the hypotheses of the theorems on single conditions. *)
From Coq Require Import List String Ascii Bool Arith ZArith Lia.
From Verif Require Import Base GoStr GoStr_facts GoFloat Types Json StrUtils Validate Prepare Eval Spec_Tree Tree_laws Spec_Regex Spec_Glob
  Spec_Leaf Number_proofs Leaf_proofs Leaf_laws Lifecycle RefLib RefLib_facts Samples.
Import ListNotations.
Open Scope string_scope.
Local Arguments String.prefix : simpl never.

(** a condition is accepted, reads [s], and evaluates to [b]; [None]: evaluation panics *)
Definition leaf_case (att method value : string) (k : kind) (m : message) (s : status) (b : option bool) : Prop :=
  exists c, prepares RefLib empty_predef att method value no_ret c /\ replaced empty_predef method value value /\
    plain_value value /\ method_is method k /\ shows RefLib att m s /\
    match b with Some b => may_return RefLib (NCond c) m b | None => may_panic RefLib (NCond c) m end.

Definition kind_eqb (a b : kind) : bool := if (ltac:(decide equality) : {a = b} + {a <> b}) then true else false.
Definition status_eqb (a b : status) : bool := if (ltac:(decide equality; apply string_dec) : {a = b} + {a <> b}) then true else false.
Lemma kind_eqb_ok a b : kind_eqb a b = true -> a = b.
Proof. unfold kind_eqb. destruct (_ : {a = b} + {a <> b}); [auto|discriminate]. Qed.
Lemma status_eqb_ok a b : status_eqb a b = true -> a = b.
Proof. unfold status_eqb. destruct (_ : {a = b} + {a <> b}); [auto|discriminate]. Qed.

(** the status at an absolute path *)
Definition seen (query : string) (m : message) : option status :=
  match m_raw m with
  | Some d => match jp_prepare RefLib query with
              | Some q => Some (match asks RefLib q d with None => Missing | Some v => value_status RefLib v end)
              | None => None
              end
  | None => match m_json m with
            | Some d => if String.eqb d "" then None
                        else Some (match fetch RefLib d query with None => Missing | Some raw => status_of raw end)
            | None => None
            end
  end.

Fixpoint path_charsb (s : string) : bool :=
  match s with
  | EmptyString => true
  | String c s' => negb (Ascii.eqb c sq) && negb (Ascii.eqb c dq) && negb (Ascii.eqb c "$") && path_charsb s'
  end.
Lemma path_charsb_ok s : path_charsb s = true -> all_chars (fun c => ~ In c [sq; dq; "$"%char]) s.
Proof.
  induction s as [|c s IH]; intro H; simpl in *; auto. rewrite !andb_true_iff, !negb_true_iff, !Ascii.eqb_neq in H.
  destruct H as (((H1 & H2) & H3) & H4). split; auto. intros [E|[E|[E|[]]]]; congruence.
Qed.
Lemma contains_none w s : contains s w = false -> forall a b, s <> a ++ w ++ b.
Proof.
  induction s as [|c s IH]; intros H a b E.
  - destruct a; [|discriminate]. destruct w; [discriminate|]. discriminate.
  - cbn [contains] in H. apply orb_false_iff in H. destruct H as [H1 H2]. destruct a as [|x a].
    + simpl in E. rewrite E, prefix_app_eq in H1. discriminate.
    + injection E; intros E1 E2. eapply IH; eauto.
Qed.

Definition run_leaf (att method value : string) (m : message) : option (option bool) :=
  match validate_condition RefLib (written RefLib att method value no_ret) with
  | Ok c0 => match prepare_condition RefLib empty_predef c0 with
             | Ok c => Some (option_map fst (fst (eval RefLib in_order (NCond c) (mkEst m 0))))
             | _ => None
             end
  | _ => None
  end.
Definition obool_eqb (a b : option bool) : bool :=
  match a, b with Some x, Some y => Bool.eqb x y | None, None => true | _, _ => false end.

Definition leaf_check (rest method value : string) (k : kind) (m : message) (s : status) (b : option bool) : bool :=
  has_prefix rest "." && path_charsb rest && negb (contains rest ".[") &&
  negb (has_prefix value "#") && negb (has_prefix value "receiverLabel[") && negb (has_prefix value "$receiver.") &&
  existsb (fun e => String.eqb (fst e) method && kind_eqb (snd e) k) method_words &&
  match seen ("$" ++ rest) m with Some s' => status_eqb s s' | None => false end &&
  match run_leaf ("jsonpath:$" ++ rest) method value m with Some b' => obool_eqb b b' | None => false end.

Lemma run_leaf_ok att method value m b : run_leaf att method value m = Some b ->
  exists c, prepares RefLib empty_predef att method value no_ret c /\
    match b with Some b => may_return RefLib (NCond c) m b | None => may_panic RefLib (NCond c) m end.
Proof.
  unfold run_leaf. destruct (validate_condition _ _) as [c0| |] eqn:EV; try discriminate.
  destruct (prepare_condition _ _ c0) as [c| |] eqn:EP; try discriminate. intro H.
  assert (E : b = option_map fst (fst (eval RefLib in_order (NCond c) (mkEst m 0)))) by congruence.
  exists c. split; [exists c0; auto|].
  destruct (eval RefLib in_order (NCond c) (mkEst m 0)) as [[[b' x]|] s] eqn:EE; cbn [fst option_map] in E; subst b.
  - exists in_order, 0, x, s. split; [exact in_order_fair|exact EE].
  - exists in_order, 0, s. split; [exact in_order_fair|exact EE].
Qed.

Lemma leaf_ok rest method value k m s b : leaf_check rest method value k m s b = true ->
  leaf_case ("jsonpath:$" ++ rest) method value k m s b.
Proof.
  unfold leaf_check. rewrite !andb_true_iff, !negb_true_iff.
  intros ((((((((H1 & H2) & H3) & H4) & H5) & H6) & H7) & H8) & H9).
  destruct (run_leaf _ method value m) as [b'|] eqn:ER; [|discriminate].
  assert (EB : b = b').
  { destruct b as [[]|], b' as [[]|]; simpl in H9; congruence. }
  subst b'. destruct (run_leaf_ok _ _ _ _ _ ER) as (c & HP & HB). exists c. split; auto.
  split; [constructor; apply starts_false; auto|]. split; [split; apply starts_false; auto|].
  split.
  { apply existsb_exists in H7. destruct H7 as ((w & k') & HI & HE). apply andb_true_iff in HE. destruct HE as [E1 E2].
    apply String.eqb_eq in E1. apply kind_eqb_ok in E2. simpl in *. subst. exact HI. }
  split; auto. exists false, ("$" ++ rest). split.
  { apply po_absolute; [apply starts_iff; auto|]. split; [apply path_charsb_ok; auto|apply contains_none; auto]. }
  destruct (seen _ m) as [s'|] eqn:ES; [|discriminate]. apply status_eqb_ok in H8. subst s'.
  assert (NQ : ~ In ("$" ++ rest) ["$KEY"; "$VALUE"]).
  { intros [E|[E|[]]]; simpl in E; injection E; intros <-; discriminate. }
  unfold seen in ES. destruct (m_raw m) as [d|] eqn:EM.
  - destruct (jp_prepare RefLib ("$" ++ rest)) as [q|] eqn:EQ; [|discriminate]. injection ES; intros <-.
    apply sa_parsed; auto. congruence.
  - destruct (m_json m) as [d|] eqn:EJ; [|discriminate]. destruct (String.eqb d "") eqn:ED; [discriminate|].
    injection ES; intros <-. apply sa_raw; auto. apply String.eqb_neq. auto.
Qed.
