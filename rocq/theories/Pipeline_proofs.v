(** Aggregation pipelines select the documents the engine accepts. *)
From Coq Require Import List String Ascii Bool Arith ZArith Permutation Lia.
From Verif Require Import Base GoStr GoStr_facts GoFloat Types Json StrUtils Validate Prepare Eval Mongo Spec_Glob Spec_Tree Spec_Leaf Spec_Names Spec_Mongo
  Tree_proofs Tree_truth Tree_laws Glob_proofs Number_proofs Validate_proofs Match_proofs Leaf_proofs Leaf_laws Prepare_proofs MongoNames_proofs Mongo_proofs Parse Lifecycle Check
  Spec_Load Load_proofs Spec_MongoMatch MongoMatch_proofs Spec_Pipeline.
From Verif Require Check_proofs Lifecycle_proofs.
Import ListNotations.
Open Scope string_scope.

(** ** Storing values at paths *)
(** only objects (or nothing) on the way to a path *)
Inductive clear : list string -> iface -> Prop :=
| cl_here v : clear [] v
| cl_member k ks o x : assoc k o = Some x -> clear ks x -> clear (k :: ks) (GMapS o)
| cl_absent k ks o : assoc k o = None -> clear (k :: ks) (GMapS o)
| cl_null ks : clear ks GNil.
Inductive diverge : list string -> list string -> Prop :=
| dv_here k k' ks ks' : k <> k' -> diverge (k :: ks) (k' :: ks')
| dv_next k ks ks' : diverge ks ks' -> diverge (k :: ks) (k :: ks').

Lemma assoc_app_none {A} (o : list (string * A)) k o' : assoc k o = None -> assoc k (o ++ o')%list = assoc k o'.
Proof. induction o as [|[k' x] o IH]; simpl; auto. destruct (String.eqb k k'); [discriminate|auto]. Qed.
Lemma assoc_app_some {A} (o : list (string * A)) k x o' : assoc k o = Some x -> assoc k (o ++ o')%list = Some x.
Proof. induction o as [|[k' y] o IH]; simpl; [discriminate|]. destruct (String.eqb k k'); auto. Qed.
Lemma assoc_set k x o : assoc k (set_member k x o) = Some x.
Proof.
  unfold set_member. destruct (assoc k o) eqn:E.
  - revert E. induction o as [|[k' y] o IH]; simpl; [discriminate|]. destruct (String.eqb k k') eqn:EK.
    + apply String.eqb_eq in EK. subst k'. intros _. rewrite String.eqb_refl. simpl. rewrite String.eqb_refl. auto.
    + intro E. rewrite String.eqb_sym in EK. rewrite EK. simpl. rewrite String.eqb_sym in EK. rewrite EK. auto.
  - rewrite assoc_app_none by auto. simpl. rewrite String.eqb_refl. auto.
Qed.
Lemma assoc_set_other k k' x o : k <> k' -> assoc k' (set_member k x o) = assoc k' o.
Proof.
  intro N. unfold set_member. destruct (assoc k o) eqn:E.
  - clear E. induction o as [|[j y] o IH]; simpl; auto. destruct (String.eqb j k) eqn:EK; simpl; rewrite IH; auto.
    apply String.eqb_eq in EK. subst j. replace (String.eqb k' k) with false by (symmetry; apply String.eqb_neq; congruence). auto.
  - clear E. induction o as [|[j y] o IH]; simpl.
    + replace (String.eqb k' k) with false by (symmetry; apply String.eqb_neq; congruence). auto.
    + rewrite IH. auto.
Qed.

Lemma store_null k ks x : store (k :: ks) x GNil = GMapS [(k, store ks x GNil)].
Proof. reflexivity. Qed.
Lemma store_object k ks x o : store (k :: ks) x (GMapS o) = GMapS (set_member k (store ks x (match assoc k o with Some y => y | None => GNil end)) o).
Proof. reflexivity. Qed.
Lemma store_there ks x d : clear ks d -> at_path ks (store ks x d) (Some x).
Proof.
  revert d. induction ks as [|k ks IH]; intros d H; [constructor|]. inversion H as [|? ? o y HA HC|? ? o HA|]; subst.
  - rewrite store_object, HA. eapply ap_member; [apply assoc_set|auto].
  - rewrite store_object, HA. eapply ap_member; [apply assoc_set|]. apply IH. constructor.
  - rewrite store_null. eapply ap_member; [simpl; rewrite String.eqb_refl; reflexivity|]. apply IH. constructor.
Qed.
Lemma store_clear_same ks x d : clear ks d -> clear ks (store ks x d).
Proof.
  revert d. induction ks as [|k ks IH]; intros d H; [constructor|]. inversion H as [|? ? o y HA HC|? ? o HA|]; subst.
  - rewrite store_object, HA. eapply cl_member; [apply assoc_set|auto].
  - rewrite store_object, HA. eapply cl_member; [apply assoc_set|]. apply IH. constructor.
  - rewrite store_null. eapply cl_member; [simpl; rewrite String.eqb_refl; reflexivity|]. apply IH. constructor.
Qed.
Lemma store_clear ks rs x d : diverge ks rs -> clear ks d -> clear rs d -> clear rs (store ks x d).
Proof.
  intro HD. revert d. induction HD as [k k' ks ks' N|k ks ks' HD IH]; intros d H1 H2.
  - inversion H1 as [|? ? o y HA HC|? ? o HA|]; subst.
    + rewrite store_object. inversion H2; subst; [eapply cl_member|apply cl_absent]; try rewrite assoc_set_other by auto; eauto.
    + rewrite store_object. inversion H2; subst; [eapply cl_member|apply cl_absent]; try rewrite assoc_set_other by auto; eauto.
    + rewrite store_null. apply cl_absent. simpl. replace (String.eqb k' k) with false by (symmetry; apply String.eqb_neq; congruence). auto.
  - inversion H1 as [|? ? o y HA HC|? ? o HA|]; subst.
    + rewrite store_object, HA. eapply cl_member; [apply assoc_set|]. apply IH; auto. inversion H2; subst; congruence.
    + rewrite store_object, HA. eapply cl_member; [apply assoc_set|]. apply IH; constructor.
    + rewrite store_null. eapply cl_member; [simpl; rewrite String.eqb_refl; reflexivity|]. apply IH; constructor.
Qed.
Lemma store_other ks rs x d v : diverge ks rs -> clear ks d -> at_path rs d (Some v) -> at_path rs (store ks x d) (Some v).
Proof.
  intro HD. revert d. induction HD as [k k' ks ks' N|k ks ks' HD IH]; intros d H1 H2; inversion H2 as [|? ? o y ? HA HP| |]; subst; rewrite store_object.
  - eapply ap_member; [rewrite assoc_set_other; eauto|auto].
  - rewrite HA. eapply ap_member; [apply assoc_set|]. apply IH; auto. inversion H1; subst; congruence.
Qed.
(** another member of the document *)
Lemma store_aside k ks k' rs x o w : k <> k' -> at_path (k' :: rs) (GMapS o) w -> at_path (k' :: rs) (store (k :: ks) x (GMapS o)) w.
Proof.
  intros N H. rewrite store_object. inversion H as [|? ? ? y ? HA HP|? ? ? HA|? ? v N1]; subst.
  - eapply ap_member; [rewrite assoc_set_other; eauto|auto].
  - apply ap_no_member. rewrite assoc_set_other; auto.
  - exfalso. eapply N1. reflexivity.
Qed.

Lemma apart ks rs : (forall k rest, rs <> ks ++ k :: rest)%list -> (forall k rest, ks <> rs ++ k :: rest)%list -> ks = rs \/ diverge ks rs.
Proof.
  revert rs. induction ks as [|k ks IH]; intros [|k' rs] H1 H2; auto.
  - destruct (H1 k' rs). auto.
  - destruct (H2 k ks). auto.
  - destruct (string_dec k k') as [->|N]; [|right; constructor; auto]. assert (HI : ks = rs \/ diverge ks rs).
    { apply IH; [intros j rest E; apply (H1 j rest); simpl; congruence|intros j rest E; apply (H2 j rest); simpl; congruence]. }
    destruct HI as [->|HD]; auto. right. apply dv_next. auto.
Qed.
Lemma diverge_app bs ks rs : diverge ks rs -> diverge (bs ++ ks) (bs ++ rs).
Proof. intro H. induction bs as [|b bs IH]; simpl; [auto|]. apply dv_next. auto. Qed.

(** ** Stages *)
Lemma field_value_at ks d w : at_path ks d w -> field_value ks d = w.
Proof.
  induction 1 as [v|k ks o x w HA H IH|k ks o HA|k ks v N1 N2]; cbn [field_value]; auto.
  - rewrite HA. auto.
  - rewrite HA. auto.
  - destruct v; auto; [destruct (N2 l)|destruct (N1 m)]; auto.
Qed.
Lemma name_plain k : field_name k -> negb (String.eqb k "") && negb (String.prefix "$" k) = true.
Proof.
  intros [N H]. destruct k as [|c k]; [congruence|]. destruct H as [H _]. apply andb_true_iff. split; [reflexivity|]. apply negb_true_iff. apply not_true_iff_false. intro E.
  apply prefix_iff in E. destruct E as [r E]. injection E as E _. subst c. revert H. not_char.
Qed.
Lemma path_names_dotted ks : ks <> [] -> Forall field_name ks -> path_names (dotted ks) = Some ks.
Proof.
  intros HN HF. unfold path_names. rewrite split_dotted by auto. replace (forallb _ ks) with true; auto. symmetry. apply forallb_forall. intros k HK. apply name_plain.
  rewrite Forall_forall in HF. auto.
Qed.
Lemma added_name : field_name "addedField".
Proof. split; [discriminate|]. cbn [all_chars]. unfold name_char. cbv zeta. repeat match goal with |- context [nat_of_ascii ?c] => let n := eval vm_compute in (nat_of_ascii c) in change (nat_of_ascii c) with n end. repeat split; lia. Qed.
Lemma part_name what : field_name (match what with Key => "k" | Value => "v" end).
Proof. split; [destruct what; discriminate|]. destruct what; cbn [all_chars]; unfold name_char; cbv zeta; repeat match goal with |- context [nat_of_ascii ?c] => let n := eval vm_compute in (nat_of_ascii c) in change (nat_of_ascii c) with n end; repeat split; lia. Qed.

Section WithLib.
Variable L : Lib.
Notation cond := (cond L).
Notation node := (node L).
Local Notation holds_at := (truth L (leaf_truth L) (contexts L)).

Definition listed (w : option iface) : iface := match w with Some (GMapS o) => GArr (map entry o) | _ => GNil end.
Definition listable (w : option iface) : Prop := match w with Some (GMapS _) | Some GNil | None => True | _ => False end.

Lemma add_stage fs d w : fs <> [] -> Forall field_name fs -> at_path fs d w -> listable w ->
  stage L (add_fields (dotted fs)) d = Kept (store ("addedField" :: fs) (listed w) d).
Proof.
  intros HN HF HW HL. unfold stage, add_fields, bone. cbn [String.eqb Ascii.eqb Bool.eqb andb append].
  replace (String "a" _) with (dotted ("addedField" :: fs)) by (destruct fs; [congruence|reflexivity]).
  rewrite !path_names_dotted by (auto; try discriminate; constructor; auto; apply added_name). rewrite (field_value_at _ _ _ HW).
  destruct w as [[| | | | | |o|]|]; try destruct HL; reflexivity.
Qed.

Section Steps.
Variable bs : list string.
Hypothesis HBN : bs <> [].
Hypothesis HBA : hd "" bs <> "addedField".
Hypothesis HB : Forall field_name bs.

Lemma steps_run kss d : Forall (fun ks => ks <> [] /\ Forall field_name ks /\ exists w, at_path ks d w /\ listable w) kss ->
  (forall ks k rest, In ks kss -> ~ In (ks ++ k :: rest)%list kss) ->
  forall D done, at_path bs D (Some d) -> (forall ks, In ks (done ++ kss) -> clear ("addedField" :: bs ++ ks) D)%list -> incl done kss ->
    (forall ks w, In ks done -> at_path ks d w -> at_path ("addedField" :: bs ++ ks)%list D (Some (listed w))) ->
  forall todo, incl todo kss -> (forall ks, In ks kss -> In ks done \/ In ks todo) ->
  exists D', pipeline L (map (fun ks => add_fields (dotted (bs ++ ks))) todo) D = Kept D' /\ at_path bs D' (Some d) /\
    forall ks w, In ks kss -> at_path ks d w -> at_path ("addedField" :: bs ++ ks)%list D' (Some (listed w)).
Proof.
  intros HF HNN D done HD HCL HI HV todo. revert D done HD HCL HI HV. induction todo as [|t todo IH]; intros D done HD HCL HI HV HT HA.
  - exists D. split; [reflexivity|split; [auto|]]. intros ks w HK HW. destruct (HA ks HK) as [H|[]]. auto.
  - cbn [map pipeline]. assert (HTK : In t kss) by (apply HT; simpl; auto). pose proof HF as HF0. rewrite Forall_forall in HF. destruct (HF t HTK) as (TN & TF & w & TW & TL).
    rewrite (add_stage _ _ w); [| |apply Forall_app; auto|eapply at_path_app; eauto|auto]; [|intro E; apply app_eq_nil in E; tauto].
    assert (HC : clear ("addedField" :: bs ++ t)%list D) by (apply HCL; apply in_or_app; auto).
    assert (HOB : exists o, D = GMapS o).
    { inversion HC; subst; eauto. destruct bs; [congruence|]. inversion HD. }
    destruct HOB as [o HOB].
    assert (HSP : forall ks, In ks kss -> t = ks \/ diverge ("addedField" :: bs ++ t) ("addedField" :: bs ++ ks)).
    { intros ks HK. destruct (apart t ks) as [E|HV']; auto.
      - intros k rest E. apply (HNN t k rest); congruence.
      - intros k rest E. apply (HNN ks k rest); congruence.
      - right. apply dv_next. apply diverge_app. auto. }
    apply (IH _ (t :: done)).
    + destruct bs as [|b bs0]; [congruence|]. subst D. apply store_aside; auto.
    + intros ks HK. assert (HKK : In ks kss). { simpl in HK. destruct HK as [<-|HK]; auto. apply in_app_or in HK. destruct HK; auto. }
      destruct (HSP ks HKK) as [<-|HV']; [apply store_clear_same; auto|apply store_clear; auto]. apply HCL. apply in_or_app. auto.
    + intros ks [<-|HK]; auto.
    + intros ks w' HK HW'. assert (HKK : In ks kss) by (destruct HK as [<-|HK]; auto).
      destruct (HSP ks HKK) as [<-|HV'].
      * rewrite (at_path_fun _ _ _ _ HW' TW). apply store_there; auto.
      * apply store_other; auto. destruct HK as [<-|HK]; auto. exfalso. clear - HV'. inversion HV' as [|? ? ? H]; subst; [congruence|]. revert H. generalize (bs ++ t)%list. intro l. induction l; intro H; inversion H; auto.
    + intros ks HK. apply HT. simpl. auto.
    + intros ks HK. destruct (HA ks HK) as [H|[<-|H]]; simpl; auto.
Qed.
Lemma all_steps kss d D : Forall (fun ks => ks <> [] /\ Forall field_name ks /\ exists w, at_path ks d w /\ listable w) kss ->
  (forall ks k rest, In ks kss -> ~ In (ks ++ k :: rest)%list kss) -> at_path bs D (Some d) -> at_path ["addedField"] D None ->
  exists D', pipeline L (map (fun ks => add_fields (dotted (bs ++ ks))) kss) D = Kept D' /\ at_path bs D' (Some d) /\
    forall ks w, In ks kss -> at_path ks d w -> at_path ("addedField" :: bs ++ ks)%list D' (Some (listed w)).
Proof.
  intros HF HN HD HA. apply (steps_run kss d HF HN D []); auto; [|intros ? []|intros ? ? []|apply incl_refl].
  intros ks HK. inversion HA as [|? ? o x ? HX HY|? ? o HX|? ? v N1 N2]; subst; [inversion HY|apply cl_absent; auto|].
  exfalso. destruct bs; [congruence|]. inversion HD; subst. eapply N1. reflexivity.
Qed.
End Steps.

(** ** Conditions on entries *)
Definition part_attr (what : part) : string := match what with Key => "jsonpath:$KEY" | Value => "jsonpath:$VALUE" end.
Definition part_query (what : part) : string := match what with Key => "$KEY" | Value => "$VALUE" end.
Definition part_field (what : part) : string := match what with Key => "k" | Value => "v" end.
Lemma part_path what : path_of (part_attr what) true (part_query what).
Proof. destruct what; constructor. Qed.
Lemma one_kind method k k' : method_is method k -> method_is method k' -> k = k'.
Proof.
  intros H H'. unfold method_is, method_words in *. simpl in *.
  repeat (destruct H as [H|H]; [injection H; intros; subst; repeat (destruct H' as [H'|H']; [injection H'; intros; subst; try reflexivity; discriminate|]); destruct H'|]). destruct H.
Qed.
Lemma known_method p att method value ret c : prepares L p att method value ret c -> exists k, method_is method k.
Proof.
  intros (c0 & HV & _). apply validate_ok in HV. destruct HV as (_ & _ & HV & _). unfold validate_method in HV. cbn [written c_method c_attr c_value] in HV.
  destruct (contains_string supported_methods method) eqn:EC; [|discriminate]. apply is_any_iff in EC. clear - EC. unfold supported_methods in EC. simpl in EC.
  repeat (destruct EC as [<-|EC]; [eexists; unfold method_is, method_words; simpl; tauto|]). destruct EC.
Qed.

Definition entry_path (bs ks : list string) (what : part) : list string := (("addedField" :: bs ++ ks) ++ [part_field what])%list.
Lemma entry_path_names bs ks what : Forall field_name bs -> Forall field_name ks -> entry_path bs ks what <> [] /\ Forall field_name (entry_path bs ks what).
Proof.
  intros HB HF. split; [discriminate|]. apply Forall_app. split; [constructor; [apply added_name|apply Forall_app; auto]|]. constructor; [apply (part_name what)|constructor].
Qed.
Lemma entry_field bs ks what : bs <> [] -> mongo_field (dotted bs) (dotted (bs ++ ks)) 1 (part_attr what) =
  Ok (dotted (entry_path bs ks what), [add_fields (dotted (bs ++ ks))]).
Proof.
  intro HB. assert (E : dotted (entry_path bs ks what) = "addedField." ++ dotted (bs ++ ks) ++ "." ++ part_field what).
  { unfold entry_path. rewrite dotted_app by discriminate. destruct bs as [|b bs]; [congruence|]. cbn [app]. rewrite dotted_cons. rewrite !append_assoc. reflexivity. }
  rewrite E. unfold mongo_field. destruct what; cbn [part_attr]; reflexivity.
Qed.

Lemma entry_query p bs ks what method value ret c : bs <> [] -> ks <> [] -> Forall field_name bs -> Forall field_name ks -> ~ In method ["in"; "nin"] ->
  prepares L p (part_attr what) method value ret c ->
  exists q, mongo_cond L (dotted bs) (dotted (bs ++ ks)) 1 c = Ok (q, [add_fields (dotted (bs ++ ks))]) /\
    forall v k, replaced p method value v -> plain_value v -> method_is method k -> operation L (dotted (entry_path bs ks what)) (query_value k v) (query_kind k) q.
Proof.
  intros HBN HK HB HF HM HP. destruct (prepared_path_condition L _ _ _ _ _ _ _ _ HP (part_path what)) as (EA & _ & EM & _).
  pose proof (orig_attr L _ _ _ _ _ _ HP) as EO. destruct (known_method _ _ _ _ _ _ HP) as (k0 & HK0). destruct (final_kind _ _ HK0) as (F1 & F2 & F3 & F4).
  destruct (entry_path_names bs ks what HB HF) as [PN PF].
  pose proof (method_query_spec L _ _ (dotted (entry_path bs ks what)) (c_value c) F1 F2) as HQ.
  destruct (method_query L (final_method method) (dotted (entry_path bs ks what)) (c_value c)) as [q| |] eqn:EQ; [|destruct (F3 HM HQ)|destruct HQ].
  exists q. split.
  - unfold mongo_cond. rewrite EA, EO. change (negb (String.eqb "jsonpath" "jsonpath")) with false. rewrite entry_field by auto. cbn [rbind fst snd].
    rewrite plain_dotted by auto. cbn [rbind]. rewrite EM, EQ. reflexivity.
  - intros v k HR HV HM'. destruct (final_kind _ _ HM') as (_ & _ & _ & F5). pose proof (one_kind _ _ _ HM' HK0) as EK. subst k0. destruct HQ as [HQ _].
    assert (HS : starts "jsonpath:" (part_attr what)) by (destruct what; eexists; reflexivity).
    destruct (prepared_jsonpath L _ _ _ _ _ _ _ _ HP HS HR HV HM') as ((_ & _ & method' & M1 & M2 & M3 & _) & _).
    destruct (final_kind _ _ M1) as (_ & _ & _ & F6). rewrite F6 in M3. rewrite <- M3. exact HQ.
Qed.

(** positive methods look for one value *)
Lemma with_elements_in f vs : existsb f (with_elements vs) = existsb (fun v => existsb f (with_elements [v])) vs.
Proof.
  unfold with_elements. induction vs as [|v vs IH]; [reflexivity|]. cbn [map List.concat existsb]. rewrite existsb_app, IH, app_nil_r. reflexivity.
Qed.
Lemma positive_one k v vs : In k positive_kinds -> (selects L (query_kind k) v vs <-> exists u, In u vs /\ selects L (query_kind k) v [u]).
Proof.
  intro HK. assert (HS : forall f, existsb f (with_elements vs) = true <-> exists u, In u vs /\ existsb f (with_elements [u]) = true).
  { intro f. rewrite with_elements_in. apply existsb_exists. }
  simpl in HK. repeat (destruct HK as [<-|HK]; [cbn [query_kind selects]; try apply HS|]); [| | |destruct HK].
  - split.
    + intros (re & E & H). apply HS in H. destruct H as (u & H1 & H2). eauto.
    + intros (u & H1 & re & E & H2). exists re. split; auto. apply HS. eauto.
  - split.
    + intros (re & E & H). apply HS in H. destruct H as (u & H1 & H2). eauto.
    + intros (u & H1 & re & E & H2). exists re. split; auto. apply HS. eauto.
  - destruct vs as [|u vs]; (split; [intro H; try congruence|]); [intros (u & [] & _)|exists u; split; [simpl; auto|discriminate]|discriminate].
Qed.

Lemma reach_through ks rs d v : at_path ks d (Some v) -> reach (ks ++ rs) d = reach rs v.
Proof.
  intro H. remember (Some v) as s. revert Heqs. induction H; intro E; cbn [app reach]; try discriminate.
  - injection E as <-. auto.
  - cbn [under member]. rewrite H. cbn [map List.concat]. rewrite app_nil_r. auto.
Qed.
Lemma reach_entries what o : reach [part_field what] (GArr (map entry o)) = map (entry_part what) o.
Proof.
  cbn [reach under]. replace (parse_uint (part_field what)) with (@None Z) by (destruct what; reflexivity). rewrite app_nil_r.
  assert (E : List.concat (map (member (part_field what)) (map entry o)) = map (entry_part what) o).
  { induction o as [|[k x] o IH]; [reflexivity|]. cbn [map List.concat]. rewrite IH. destruct what; reflexivity. }
  rewrite E. generalize (map (entry_part what) o). intro l. induction l as [|x l IH]; [reflexivity|]. simpl in *. congruence.
Qed.
Lemma reach_listed what w o : entries_at w o -> reach [part_field what] (listed w) = map (entry_part what) o.
Proof. intros [o' HN| |]; [apply reach_entries| |]; destruct what; reflexivity. Qed.

(** ** Trees *)
Section WideInd.
Variable P : wide -> Prop.
Hypothesis HT : forall t, P (WTree t).
Hypothesis HE : forall ks what method value, P (WEntry ks what method value).
Hypothesis HA : forall ts, Forall P ts -> P (WAnd ts).
Hypothesis HO : forall ts, Forall P ts -> P (WOr ts).
Hypothesis HN : forall t, P t -> P (WNot t).
Fixpoint wide_ind' (t : wide) : P t :=
  let all := fix all (ts : list wide) : Forall P ts :=
    match ts with [] => Forall_nil P | t :: ts' => Forall_cons t (wide_ind' t) (all ts') end in
  match t with
  | WTree t => HT t
  | WEntry ks what method value => HE ks what method value
  | WAnd ts => HA ts (all ts)
  | WOr ts => HO ts (all ts)
  | WNot t => HN t (wide_ind' t)
  end.
End WideInd.

Inductive wide_loaded : wide -> node -> Prop :=
| wl_tree t n : loaded_as L true false t n -> wide_loaded (WTree t) n
| wl_entry ks what method value ret a c : ks <> [] -> Forall field_name ks -> ~ In method ["in"; "nin"] ->
    a_orig a = "jsonpath:$." ++ dotted ks -> a_parent a = "$." ++ dotted ks -> a_prep a = [] ->
    validate_condition L (written L (part_attr what) method value ret) = Ok c ->
    wide_loaded (WEntry ks what method value) (NQuant QAny a (NCond c))
| wl_and ts ns : ts <> [] -> Forall2 wide_loaded ts ns -> wide_loaded (WAnd ts) (NAnd ns)
| wl_or ts ns : ts <> [] -> Forall2 wide_loaded ts ns -> wide_loaded (WOr ts) (NOr ns)
| wl_not t n : wide_loaded t n -> wide_loaded (WNot t) (NNot n).

Section Agreement.
Variable p : predef.
Variable bs : list string.
Hypothesis HP : PathSpec L.
Hypothesis HES : EntriesSpec L.
Hypothesis HNum : NumberSpec L.
Hypothesis HB : Forall field_name bs.
Hypothesis HBN : bs <> [].

Definition steps_of (t : wide) : list bson := map (fun ks => add_fields (dotted (bs ++ ks))) (objects t).
(** the document with the entries listed *)
Definition arrayed (t : wide) (d D : iface) : Prop :=
  forall ks w, In ks (objects t) -> at_path ks d w -> at_path ("addedField" :: bs ++ ks)%list D (Some (listed w)).
Definition wide_good (t : wide) (n : node) (q : bson) : Prop :=
  (forall parent, to_mongo L (dotted bs) parent 0 n = Ok (q, steps_of t)) /\
  forall d D m b, wide_suits L p t d -> at_path bs D (Some d) -> arrayed t d D -> m_raw m = Some d -> holds_at n m b ->
    (b = true <-> matches L q (Document D) = true).

Lemma entry_parent ks : ks <> [] -> Forall field_name ks -> parent_field (dotted bs) ("jsonpath:$." ++ dotted ks) = dotted (bs ++ ks).
Proof.
  intros HK HF. apply parent_name_fun. rewrite dotted_app by auto. pose proof (dotted_chars ks HF) as C1. pose proof (dotted_chars bs HB) as C2.
  assert (HA : all_chars path_char (dotted bs ++ "." ++ dotted ks)) by (apply all_chars_app; split; auto; simpl; split; auto; right; auto).
  apply pn_root.
  - apply (no_dollar _ ""). apply path_no_dollar. auto.
  - revert HA. generalize (dotted bs ++ "." ++ dotted ks). intro s. induction s as [|c s IH]; [constructor|]. intros [HC HS]. apply wm_keep; auto. intros ->. exfalso. revert HC. not_char.
Qed.
Lemma no_mark s : all_chars path_char s -> has_suffix ("jsonpath:$." ++ s) "[:]" = false /\ has_suffix ("jsonpath:$." ++ s) "[*]" = false.
Proof.
  intro HS. assert (HA : forall w, has_suffix ("jsonpath:$." ++ s) (w ++ "]") = false).
  { intro w. apply not_true_iff_false. intro E. apply has_suffix_iff in E. destruct E as [r E].
    assert (HC : all_chars (fun c => c <> "]"%char) ("jsonpath:$." ++ s)).
    { apply all_chars_app. split; [simpl; repeat split; discriminate|]. apply path_no; auto. not_char. }
    rewrite E in HC. apply all_chars_app in HC. destruct HC as [_ HC]. apply all_chars_app in HC. destruct HC as [_ [HC _]]. congruence. }
  split; [apply (HA "[:")|apply (HA "[*")].
Qed.

(** the entries the engine ranges over *)
Lemma engine_entries ks a d m o w vs f : ks <> [] -> Forall field_name ks -> a_parent a = "$." ++ dotted ks -> a_prep a = [Some f] -> jp_prepare L ("$." ++ dotted ks) = Some f ->
  m_raw m = Some d -> at_path ks d w -> entries_at w o -> selected L a m vs ->
  (forall e, In e vs -> exists kx, In kx o /\ e = GMapS [kx]) /\ (forall kx, In kx o -> In (GMapS [kx]) vs).
Proof.
  intros HN HF EP EF HJ HR HW HE HS. unfold selected in HS.
  replace (String.eqb (a_parent a) "$RELATIVE*") with false in HS by (symmetry; apply String.eqb_neq; rewrite EP; discriminate).
  destruct HS as (doc & parts & HD & HF2 & ->). rewrite EF in *. inversion HF2 as [|x pt xs parts' (f' & E1 & HA) HF2']; subst. inversion HF2'; subst. injection E1 as <-.
  destruct (HD ltac:(discriminate)) as [_ D2].
  assert (HRE : ~ refers_to_element (a_parent a)) by (rewrite EP; intros [[r E]|[E|[[r E]|[r E]]]]; discriminate).
  specialize (D2 HRE). assert (doc = d) by congruence. subst doc. cbn [List.concat]. rewrite app_nil_r.
  assert (HQ : fst (jp_query L f d) = match w with Some v => v | None => GNil end).
  { destruct w as [v|]; [|apply (proj2 HES ks f d); auto]. pose proof (proj1 HP ks f d _ HN HF HJ HW) as HK. cbn iota in HK. unfold asks in HK.
    destruct (jp_query L f d) as [r [e|]]; [destruct (contains e _); [|discriminate]|]; injection HK as ->; reflexivity. }
  rewrite HQ in HA. inversion HE as [o' HND| |]; subst.
  - inversion HA as [? es (kl & HPM & HEN)| | |]; subst. split.
    + intros e He. destruct (Check_proofs.Forall2_in_r _ _ _ e HEN He) as (k & Hk & v & Hv & ->). exists (k, v). split; auto. apply Lifecycle_proofs.assoc_in; auto.
    + intros [k x] Hk. assert (HI : In k kl) by (apply (Permutation_in k (Permutation_sym HPM)); apply in_map_iff; exists (k, x); auto).
      destruct (Check_proofs.Forall2_in_l _ _ _ k HEN HI) as (e & He & v & Hv & ->). rewrite (Lifecycle_proofs.in_assoc _ _ _ HND Hk) in Hv. injection Hv as <-. auto.
  - inversion HA. split; intros ? [].
  - inversion HA. split; intros ? [].
Qed.

Lemma good_entry ks what method value ret a a' c c' : ks <> [] -> Forall field_name ks -> ~ In method ["in"; "nin"] ->
  a_orig a = "jsonpath:$." ++ dotted ks -> a_parent a = "$." ++ dotted ks -> a_prep a = [] -> prepare_aa L a = Ok a' ->
  validate_condition L (written L (part_attr what) method value ret) = Ok c -> prepare_condition L p c = Ok c' ->
  exists q, wide_good (WEntry ks what method value) (NQuant QAny a' (NCond c')) q.
Proof.
  intros HN HF HM EO EP EE HA HV HC. unfold prepare_aa in HA. pose proof (dotted_chars ks HF) as HCH.
  assert (HNC : all_chars (fun c => c <> ","%char) ("$." ++ dotted ks)) by (simpl; do 2 (split; [discriminate|]); apply path_no; auto; not_char).
  rewrite EP, split_no_comma in HA by auto. cbn [rmapM] in HA.
  assert (EQ : prepare_query L ("$." ++ dotted ks) = match jp_prepare L ("$." ++ dotted ks) with Some q => Ok (Some q) | None => Err end).
  { apply (prepared_plain L ("." ++ dotted ks)); [eexists; reflexivity|]. simpl. split; [discriminate|]. apply path_no_dollar; auto. }
  rewrite EQ in HA. destruct (jp_prepare L ("$." ++ dotted ks)) as [f|] eqn:EJ; [|discriminate]. cbn [rbind] in HA. injection HA as <-. rewrite EE. cbn [app].
  set (a1 := mkAA _ _ _ _ _).
  assert (HPR : prepares L p (part_attr what) method value ret c') by (exists c; auto).
  destruct (entry_query p bs ks what method value ret c' HBN HN HB HF HM HPR) as (q & HQ & HOP). exists q. split.
  - intro parent. cbn [to_mongo a_orig a1]. 
    assert (ED : has_prefix (a_orig a) "jsonpath:$.." = false).
    { rewrite EO. apply starts_false. intros [r E]. destruct (dotted_nonempty ks HN HF) as [D1 D2]. destruct (dotted ks) as [|c0 s]; [congruence|]. simpl in E. injection E as E1 E2. subst c0. apply D2. exists s. auto. }
    rewrite ED, EO, entry_parent by auto. unfold array_depth. destruct (no_mark (dotted ks) HCH) as [-> ->]. cbn [orb]. rewrite HQ. reflexivity.
  - intros d D m b HS HD HAR HR HT. inversion HS as [|? ? ? ? v k ? w o HRP HPV HMI HPK HW HE HCB| | |]; subst.
    specialize (HOP v k HRP HPV HMI). destruct (entry_path_names bs ks what HB HF) as [PN PF]. rewrite (operation_selects L _ D _ _ _ PN PF HOP).
    unfold entry_path. rewrite (reach_through _ _ _ _ (HAR ks w ltac:(simpl; auto) HW)), (reach_listed what w o HE), (positive_one k) by auto.
    assert (HIN : forall kx b', In kx o -> holds_at (NCond c') (set_raw_rel m (Some (GMapS [kx]))) b' ->
      (b' = true <-> selects L (query_kind k) (query_value k v) [entry_part what kx])).
    { intros kx b' HK HH. set (m' := set_raw_rel m (Some (GMapS [kx]))) in *.
      assert (HM1 : m_raw m' <> None) by (destruct m; simpl in *; congruence).
      assert (HM2 : m_raw_rel m' = Some (GMapS [kx])) by (destruct m; reflexivity).
      assert (HSH : shows L (part_attr what) m' (status_at_path L (Some (entry_part what kx)))).
      { exists true, (part_query what). split; [apply part_path|]. destruct kx as [k0 x]. destruct HES as [HE1 _]. destruct what; cbn [part_query entry_part fst snd status_at_path]; [eapply sa_key|eapply sa_value]; eauto. }
      assert (HMR : may_return L (NCond c') m' b') by (destruct HH as (x & ord & t & s & HFO & HEV); exists ord, t, x, s; auto).
      rewrite (condition_iff L _ _ _ _ _ _ _ _ _ _ _ HNum HPR HRP HPV HMI HSH HMR). rewrite Forall_forall in HCB.
      apply (comparable_agree L v k (Some (entry_part what kx))); [auto|]. intro HI.
      assert (HST : starts "jsonpath:" (part_attr what)) by (destruct what; eexists; reflexivity).
      destruct (prepared_jsonpath L _ _ _ _ _ _ _ _ HPR HST HRP HPV HMI) as ((_ & _ & method' & M1 & M2 & M3 & _ & M4 & M5 & _) & _).
      destruct (final_kind _ _ M1) as (_ & _ & _ & F6). rewrite <- F6. auto. }
    assert (HCX : forall cs, contexts L a1 m cs -> exists vs, cs = Some (map (fun v => set_raw_rel m (Some v)) vs) /\
      (forall e, In e vs -> exists kx, In kx o /\ e = GMapS [kx]) /\ (forall kx, In kx o -> In (GMapS [kx]) vs)).
    { intros cs HC'. apply parsed_contexts in HC'; [|congruence|discriminate]. destruct HC' as (vs & HSE & ->). exists vs. split; auto.
      eapply (engine_entries ks a1 d m o w vs f); eauto. }
    cbn [truth] in HT. destruct HT as [(ms & HC' & HX)|[HC' ->]]; [|destruct (HCX _ HC') as (vs & E & _); discriminate].
    destruct (HCX _ HC') as (vs & E & H1 & H2). injection E as ->. destruct b.
    + split; auto. intros _. apply Exists_exists in HX. destruct HX as (m' & HM' & HT). apply in_map_iff in HM'. destruct HM' as (e & <- & He).
      destruct (H1 e He) as (kx & HK & ->). apply (HIN kx true HK) in HT. exists (entry_part what kx). split; [apply in_map; auto|apply HT; auto].
    + split; [discriminate|]. intros (u & HU & HSE). exfalso. apply in_map_iff in HU. destruct HU as (kx & <- & HK). rewrite Forall_forall in HX.
      assert (HT : holds_at (NCond c') (set_raw_rel m (Some (GMapS [kx]))) false) by (apply HX; apply in_map_iff; eauto).
      apply (HIN kx false HK) in HT. apply HT in HSE. discriminate.
Qed.

(** children *)
Inductive all_wide : list wide -> list node -> list bson -> Prop :=
| aw_nil : all_wide [] [] []
| aw_cons t ts n ns q qs : wide_good t n q -> all_wide ts ns qs -> all_wide (t :: ts) (n :: ns) (q :: qs).
Lemma wide_children ts ns qs : all_wide ts ns qs -> exists rs, rseq (map (to_mongo L (dotted bs) "" 0) ns) = Ok rs /\ map fst rs = qs /\
  List.concat (map snd rs) = map (fun ks => add_fields (dotted (bs ++ ks))) (List.concat (map objects ts)).
Proof.
  induction 1 as [|t ts n ns q qs [H1 _] _ (rs & E1 & E2 & E3)]; [exists []; auto|]. exists ((q, steps_of t) :: rs). cbn [map rseq]. rewrite H1, E1. cbn [rbind].
  split; [reflexivity|]. split; [cbn [fst]; congruence|]. cbn [snd List.concat]. rewrite E3, map_app. reflexivity.
Qed.
Lemma arrayed_child t ts d D : In t ts -> (forall ks w, In ks (List.concat (map objects ts)) -> at_path ks d w -> at_path ("addedField" :: bs ++ ks)%list D (Some (listed w))) -> arrayed t d D.
Proof. intros HT H ks w HK HW. apply H; auto. apply in_concat. exists (objects t). split; auto. apply in_map. auto. Qed.

Section Children.
Variables (d D : iface) (m : message).
Hypothesis HD : at_path bs D (Some d).
Hypothesis HR : m_raw m = Some d.
Lemma wide_and ts ns qs : all_wide ts ns qs -> Forall (fun t => wide_suits L p t d) ts -> Forall (fun t => arrayed t d D) ts ->
  (fold_right (fun n r => holds_at n m true /\ r) True ns -> forallb (fun q => matches L q (Document D)) qs = true) /\
  (fold_right (fun n r => holds_at n m false \/ r) False ns -> forallb (fun q => matches L q (Document D)) qs = false).
Proof.
  induction 1 as [|t ts n ns q qs [_ H1] _ IH]; intros HS HAR; cbn [fold_right forallb]; [tauto|]. inversion HS as [|? ? S1 S2]; subst. inversion HAR as [|? ? A1 A2]; subst. destruct (IH S2 A2) as [I1 I2]. split.
  - intros [HT HF]. apply andb_true_iff. split; [apply (H1 d D m true); auto|auto].
  - intros [HT|HF]; apply andb_false_iff; [left|right; auto]. apply not_true_iff_false. intro E. apply (H1 d D m false) in E; auto. discriminate.
Qed.
Lemma wide_or ts ns qs : all_wide ts ns qs -> Forall (fun t => wide_suits L p t d) ts -> Forall (fun t => arrayed t d D) ts ->
  (fold_right (fun n r => holds_at n m true \/ r) False ns -> existsb (fun q => matches L q (Document D)) qs = true) /\
  (fold_right (fun n r => holds_at n m false /\ r) True ns -> existsb (fun q => matches L q (Document D)) qs = false).
Proof.
  induction 1 as [|t ts n ns q qs [_ H1] _ IH]; intros HS HAR; cbn [fold_right existsb]; [tauto|]. inversion HS as [|? ? S1 S2]; subst. inversion HAR as [|? ? A1 A2]; subst. destruct (IH S2 A2) as [I1 I2]. split.
  - intros [HT|HF]; apply orb_true_iff; [left; apply (H1 d D m true); auto|right; auto].
  - intros [HT HF]. apply orb_false_iff. split; [|auto]. apply not_true_iff_false. intro E. apply (H1 d D m false) in E; auto. discriminate.
Qed.
End Children.

Theorem wide_agree : forall t n, wide_loaded t n -> forall n', prepare_node L p n = Ok n' -> exists q, wide_good t n' q.
Proof.
  assert (HCH : forall ts, Forall (fun t => forall n, wide_loaded t n -> forall n', prepare_node L p n = Ok n' -> exists q, wide_good t n' q) ts ->
    forall ns, Forall2 wide_loaded ts ns -> forall ns', Forall2 (fun n n' => prepare_node L p n = Ok n') ns ns' -> exists qs, all_wide ts ns' qs).
  { induction ts as [|t ts IH]; intros HT ns H1 ns' H2; inversion H1 as [|? n ? ns0 HL H1']; subst; inversion H2 as [|? n' ? ns0' HPR H2']; subst.
    - exists []. constructor.
    - inversion HT as [|? ? HT1 HT2]; subst. destruct (HT1 _ HL _ HPR) as (q & HG). destruct (IH HT2 _ H1' _ H2') as (qs & HGS). exists (q :: qs). constructor; auto. }
  induction t as [t|ks what method value|ts IH|ts IH|t IH] using wide_ind'; intros n HL n' HPR; inversion HL; subst.
  - destruct (tree_agree L p bs HP HNum HB true (fun _ => HBN) t false n ltac:(assumption) n' HPR) as (q & HG1 & HG2). exists q. split.
    + intro parent. rewrite HG1. reflexivity.
    + intros d D m b HS HD _ HR HT. inversion HS; subst. apply (HG2 d D m b); auto. split; [congruence|auto].
  - cbn [prepare_node] in HPR. apply rbind_ok in HPR. destruct HPR as (n1 & HS & HPR). apply rbind_ok in HPR. destruct HPR as (a' & HA & HPR). injection HPR as <-.
    apply rmap_ok in HS. destruct HS as (c' & HC & ->). eapply good_entry; eauto.
  - cbn [prepare_node] in HPR. apply rmap_ok in HPR. destruct HPR as (ns' & HS & ->). apply rseq_map_ok in HS. destruct (HCH ts IH ns ltac:(assumption) ns' HS) as (qs & HG).
    exists (BDoc [("$and", BArr qs)]). split.
    + intro parent. cbn [to_mongo]. destruct (wide_children _ _ _ HG) as (rs & E1 & E2 & E3). rewrite E1. cbn [rbind]. rewrite E2, E3. reflexivity.
    + intros d D m b HSU HD HAR HR HT. inversion HSU; subst.
      assert (HAC : Forall (fun t => arrayed t d D) ts) by (apply Forall_forall; intros t Ht; apply (arrayed_child t ts); auto).
      assert (EM : matches L (BDoc [("$and", BArr qs)]) (Document D) = forallb (fun q => matches L q (Document D)) qs && true) by reflexivity.
      rewrite EM, andb_true_r. destruct (wide_and d D m HD HR ts ns' qs HG ltac:(assumption) HAC) as [C1 C2]. cbn [truth] in HT.
      destruct b; [rewrite (C1 HT); tauto|rewrite (C2 HT); split; discriminate].
  - cbn [prepare_node] in HPR. apply rmap_ok in HPR. destruct HPR as (ns' & HS & ->). apply rseq_map_ok in HS. destruct (HCH ts IH ns ltac:(assumption) ns' HS) as (qs & HG).
    exists (BDoc [("$or", BArr qs)]). split.
    + intro parent. cbn [to_mongo]. destruct (wide_children _ _ _ HG) as (rs & E1 & E2 & E3). rewrite E1. cbn [rbind]. rewrite E2, E3. reflexivity.
    + intros d D m b HSU HD HAR HR HT. inversion HSU; subst.
      assert (HAC : Forall (fun t => arrayed t d D) ts) by (apply Forall_forall; intros t Ht; apply (arrayed_child t ts); auto).
      assert (EM : matches L (BDoc [("$or", BArr qs)]) (Document D) = existsb (fun q => matches L q (Document D)) qs && true) by reflexivity.
      rewrite EM, andb_true_r. destruct (wide_or d D m HD HR ts ns' qs HG ltac:(assumption) HAC) as [C1 C2]. cbn [truth] in HT.
      destruct b; [rewrite (C1 HT); tauto|rewrite (C2 HT); split; discriminate].
  - cbn [prepare_node] in HPR. apply rmap_ok in HPR. destruct HPR as (n1 & HS & ->). destruct (IH _ ltac:(eassumption) _ HS) as (q & HG1 & HG2).
    exists (BDoc [("$nor", BArr [q])]). split.
    + intro parent. cbn [to_mongo]. rewrite HG1. reflexivity.
    + intros d D m b HSU HD HAR HR HT. inversion HSU; subst.
      assert (EM : matches L (BDoc [("$nor", BArr [q])]) (Document D) = negb (matches L q (Document D) || false) && true) by reflexivity.
      rewrite EM, andb_true_r, orb_false_r. cbn [truth] in HT. apply (HG2 d D m (negb b)) in HT; auto. destruct b, (matches L q (Document D)); cbn [negb] in *; intuition discriminate.
Qed.
End Agreement.

(** ** Loading *)
Section Loading.
Variable ord : order.
Hypothesis HO : fair ord.

Lemma single_key k v p u n u' : In k ["AND"; "OR"; "NOT"; "ANY"; "ALL"] -> In p [""; "condition"; "NOT"] ->
  interpret L ord (GMapS [(k, v)]) p u = (Ok n, u') -> forall R : node -> Prop, (forall n1 w w', interpret L ord v k w = (Ok n1, w') -> R n1) ->
  if String.eqb p "NOT" then exists n1, n = NNot n1 /\ R n1 else R n.
Proof.
  intros HK HP H R HR. cbn [interpret map fst snd] in H.
  assert (HC : is_condition_node [(k, (v, interpret L ord v))] = false) by (clear - HK; repeat (destruct HK as [<-|HK]; [reflexivity|]); destruct HK).
  unfold handle_map in H. rewrite HC in H. destruct HP as [<-|[<-|[<-|[]]]]; cbn [String.eqb Ascii.eqb Bool.eqb]; [eapply HR; exact H|eapply HR; exact H|].
  apply pbind_ok in H. destruct H as (n1 & u1 & HW & H2). unfold pret in H2. injection H2 as <- <-. eauto.
Qed.

Lemma entry_parent_text ks : Forall field_name ks -> replace_all ("jsonpath:$." ++ dotted ks) "jsonpath:" "" = "$." ++ dotted ks.
Proof.
  intro HF. pose proof (path_no_colon false ks HF) as HC. unfold written_path in HC. cbv iota in HC. change ("jsonpath:$." ++ dotted ks) with ("jsonpath:" ++ ("$." ++ dotted ks)). revert HC. generalize ("$." ++ dotted ks). intros r HC.
  unfold replace_all. cbn [append replace_all_from]. replace (String.prefix _ _) with true by (symmetry; apply prefix_iff; eexists; reflexivity).
  cbn [String.length Nat.sub pred replace_all_from append]. apply (replace_absent "jsonpath:").
  intros a b E. rewrite E in HC. apply all_chars_app in HC. destruct HC as [_ HC]. simpl in HC. intuition congruence.
Qed.
Lemma entry_loaded ks what method value u n u' : in_wide (WEntry ks what method value) ->
  interpret L ord (GMapS [("parentJsonpathAttribute", GStr ("jsonpath:$." ++ dotted ks));
    ("condition", GMapS [("attribute", GStr (part_attr what)); ("method", GStr method); ("value", GStr value)])]) "ANY" u = (Ok n, u') ->
  wide_loaded (WEntry ks what method value) n.
Proof.
  intros HF H. inversion HF as [|? ? ? ? HN HK HM| | |]; subst.
  set (e1 := GStr _) in H. set (e2 := GMapS [("attribute", _); _; _]) in H.
  assert (HH : any_all_node L ord QAny [("parentJsonpathAttribute", (e1, interpret L ord e1)); ("condition", (e2, interpret L ord e2))] u = (Ok n, u')) by exact H.
  clear H. unfold any_all_node in HH. cbn [List.length Nat.eqb orb negb] in HH.
  replace (contains_string _ _) with true in HH by reflexivity. cbn [negb] in HH. apply pbind_ok in HH. destruct HH as (kl & u1 & HK1 & HH). unfold prange in HK1. injection HK1 as <- <-.
  apply pbind_ok in HH. destruct HH as ([a inner'] & u2 & HL & HH). destruct (String.eqb (a_parent a) "") eqn:EA; [discriminate|]. injection HH as <- <-.
  pose proof (HO u ["parentJsonpathAttribute"; "condition"]) as HP. apply two_keys in HP.
  assert (HV : valid_parent ("jsonpath:$." ++ dotted ks) = true).
  { unfold valid_parent. replace (has_prefix _ "jsonpath:$.") with true; [rewrite orb_true_r; auto|]. symmetry. apply starts_iff. eexists. reflexivity. }
  assert (HG : a = mkAA ("$." ++ dotted ks) [] ("jsonpath:$." ++ dotted ks) no_ret [] /\ exists v v', interpret L ord e2 "condition" v = (Ok inner', v')).
  { unfold keys in HL. cbn [map fst] in HL. destruct HP as [HP|HP]; rewrite HP in HL; cbn [aa_loop assoc String.eqb Ascii.eqb Bool.eqb] in HL.
    - change (as_string e1) with (Ok ("jsonpath:$." ++ dotted ks)) in HL. unfold pbind at 1, pret at 1 in HL. rewrite HV, entry_parent_text in HL by auto.
      apply pbind_ok in HL. destruct HL as (n1 & v & HL & HE). unfold pret in HE. injection HE as <- <- <-. split; eauto.
    - apply pbind_ok in HL. destruct HL as (n1 & v & HL & HE). change (as_string e1) with (Ok ("jsonpath:$." ++ dotted ks)) in HE.
      unfold pbind, pret in HE. rewrite HV, entry_parent_text in HE by auto. injection HE as <- <- <-. split; eauto. }
  destruct HG as (-> & v & v' & HG). cbn [e2 interpret map fst snd] in HG. unfold handle_map in HG.
  match type of HG with (if ?x then _ else _) _ = _ => replace x with true in HG by reflexivity end.
  unfold pret in HG. injection HG as HG _. unfold node_condition, plain in HG. cbn [map fst snd read_condition as_string rbind] in HG.
  change (rbind (validate_condition L (written L (part_attr what) method value no_ret)) (fun c => Ok (NCond c)) = Ok inner') in HG.
  apply rbind_ok in HG. destruct HG as (c & HC & HG). injection HG as <-. eapply wl_entry; eauto.
Qed.

Lemma wide_children_loaded ts l : Forall (fun t => forall n p u u', in_wide t -> In p [""; "NOT"] -> interpret L ord (wide_spelled t) p u = (Ok n, u') ->
    if String.eqb p "NOT" then exists n1, n = NNot n1 /\ wide_loaded t n1 else wide_loaded t n) ts ->
  Forall in_wide ts -> Forall2 (loads L ord) (map wide_spelled ts) l -> Forall2 wide_loaded ts l.
Proof.
  intro HT. revert l. induction HT as [|t ts HT HTS IH]; intros l HF HL; inversion HL as [|? n ? ns HN HNS]; subst; constructor; inversion HF; subst; auto.
  destruct HN as (u & u' & HN). apply (HT n "" u u'); simpl; auto.
Qed.
Lemma wide_loads t : forall n p u u', in_wide t -> In p [""; "NOT"] -> interpret L ord (wide_spelled t) p u = (Ok n, u') ->
  if String.eqb p "NOT" then exists n1, n = NNot n1 /\ wide_loaded t n1 else wide_loaded t n.
Proof.
  induction t as [t|ks what method value|ts IH|ts IH|t IH] using wide_ind'; intros n p u u' HF HP H; assert (HP3 : In p [""; "condition"; "NOT"]) by (simpl in *; tauto).
  - inversion HF; subst. apply (tree_loads L ord HO true) in H; auto. destruct (String.eqb p "NOT").
    + destruct H as (n1 & -> & H). exists n1. split; auto. constructor. auto.
    + constructor. auto.
  - cbn [wide_spelled] in H. refine (single_key _ _ p u n u' _ HP3 H (wide_loaded (WEntry ks what method value)) _); [simpl; tauto|]. intros n1 w w' HW. eapply entry_loaded; eauto.
  - inversion HF as [| |? HNE HFR|? HNE HFR|? HFR]; subst. cbn [wide_spelled] in H. eapply single_key; [| |exact H|]; [simpl; auto|auto|]. intros n1 w w' HW.
    assert (HA : interpret L ord (GMapS [("AND", GArr (map wide_spelled ts))]) "" w = (Ok n1, w')) by exact HW.
    apply array_of in HA; [|simpl; auto|simpl; auto]. destruct HA as (ns & HA & ->). constructor; auto. eapply wide_children_loaded; eauto.
  - inversion HF as [| |? HNE HFR|? HNE HFR|? HFR]; subst. cbn [wide_spelled] in H. eapply single_key; [| |exact H|]; [simpl; auto|auto|]. intros n1 w w' HW.
    assert (HA : interpret L ord (GMapS [("OR", GArr (map wide_spelled ts))]) "" w = (Ok n1, w')) by exact HW.
    apply array_of in HA; [|simpl; auto|simpl; auto]. destruct HA as (ns & HA & ->). constructor; auto. eapply wide_children_loaded; eauto.
  - inversion HF as [| |? HNE HFR|? HNE HFR|? HFR]; subst. cbn [wide_spelled] in H. eapply single_key; [| |exact H|]; [simpl; auto|auto|]. intros n1 w w' HW.
    apply IH in HW; [|exact HFR|simpl; auto]. cbn [String.eqb Ascii.eqb Bool.eqb] in HW. destruct HW as (n2 & -> & HW). constructor. auto.
Qed.
End Loading.

(** ** The result *)
Lemma objects_names : forall t, in_wide t -> Forall (fun ks => ks <> [] /\ Forall field_name ks) (objects t).
Proof.
  assert (HC : forall ts, Forall (fun t => in_wide t -> Forall (fun ks => ks <> [] /\ Forall field_name ks) (objects t)) ts -> Forall in_wide ts ->
    Forall (fun ks => ks <> [] /\ Forall field_name ks) (List.concat (map objects ts))).
  { induction 1 as [|t ts HT HTS IH]; intro HF; [constructor|]. inversion HF; subst. cbn [map List.concat]. apply Forall_app. auto. }
  induction t as [t|ks what method value|ts IH|ts IH|t IH] using wide_ind'; intro HF; inversion HF; subst; cbn [objects]; auto.
Qed.
Lemma objects_listable p d : forall t, wide_suits L p t d -> Forall (fun ks => exists w, at_path ks d w /\ listable w) (objects t).
Proof.
  assert (HC : forall ts, Forall (fun t => wide_suits L p t d -> Forall (fun ks => exists w, at_path ks d w /\ listable w) (objects t)) ts -> Forall (fun t => wide_suits L p t d) ts ->
    Forall (fun ks => exists w, at_path ks d w /\ listable w) (List.concat (map objects ts))).
  { induction 1 as [|t ts HT HTS IH]; intro HF; [constructor|]. inversion HF; subst. cbn [map List.concat]. apply Forall_app. auto. }
  induction t as [t|ks what method value|ts IH|ts IH|t IH] using wide_ind'; intro HF; inversion HF as [|? ? ? ? ? ? ? w ? ? ? ? ? HW HE| | |]; subst; cbn [objects]; auto.
  constructor; [|constructor]. exists w. split; auto. destruct HE; exact I.
Qed.
Lemma pipeline_app ss ss' d d' : pipeline L ss d = Kept d' -> pipeline L (ss ++ ss') d = pipeline L ss' d'.
Proof. revert d. induction ss as [|s ss IH]; intros d H; cbn [app pipeline] in *; [congruence|]. destruct (stage L s d); try discriminate. auto. Qed.

Theorem pipeline_agrees ord u u' p bs t n n' : PathSpec L -> EntriesSpec L -> NumberSpec L -> fair ord -> Forall field_name bs -> bs <> [] -> hd "" bs <> "addedField" ->
  in_wide t -> not_nested t -> parse_conditions_tree L ord (wide_spelled t) u = (Ok n, u') -> prepare_node L p n = Ok n' ->
  exists q ss, to_mongo L (dotted bs) "" 0 n' = Ok (q, ss) /\ (ss = [] <-> objects t = []) /\
    forall d D m b, wide_suits L p t d -> at_path bs D (Some d) -> at_path ["addedField"] D None -> m_raw m = Some d -> may_return L n' m b ->
      selected_by L (match ss with [] => Simple q | _ => Aggregate (ss ++ [BDoc [("$match", q)]]) end) D b.
Proof.
  intros HP HE HN HO HB HBN HBA HF HNN HL HPR. apply (wide_loads ord HO t) in HL; [|auto|simpl; auto]. cbn [String.eqb] in HL.
  destruct (wide_agree p bs HP HE HN HB HBN t n HL n' HPR) as (q & HG1 & HG2). exists q, (steps_of bs t). split; [auto|]. split.
  { unfold steps_of. destruct (objects t); simpl; split; congruence. }
  intros d D m b HS HD HA HR HM. apply may_return_holds in HM.
  assert (HFO : Forall (fun ks => ks <> [] /\ Forall field_name ks /\ exists w, at_path ks d w /\ listable w) (objects t)).
  { pose proof (objects_names t HF) as H1. pose proof (objects_listable p d t HS) as H2. rewrite Forall_forall in *. intros ks HK. destruct (H1 ks HK). auto. }
  destruct (all_steps bs HBN HBA HB (objects t) d D HFO HNN HD HA) as (D' & HPI & HD' & HAR).
  fold (steps_of bs t) in HPI. specialize (HG2 d D' m b HS HD' HAR HR HM).
  assert (HX : selected_by L (Aggregate (steps_of bs t ++ [BDoc [("$match", q)]])) D b).
  { unfold selected_by. cbn [aggregates]. rewrite (pipeline_app _ _ _ _ HPI). cbn [pipeline stage String.eqb Ascii.eqb Bool.eqb]. destruct (matches L q (Document D')); [apply HG2; auto|]. destruct b; [|auto].
    destruct HG2 as [HG2 _]. discriminate (HG2 eq_refl). }
  destruct (steps_of bs t) as [|s ss] eqn:ES; [|exact HX].
  unfold selected_by in *. cbn [aggregates app pipeline stage String.eqb Ascii.eqb Bool.eqb] in *. destruct (matches L q (Document D)); auto.
Qed.
Theorem rule_pipeline_agrees ord g p bs t n n' u u' s k r : PathSpec L -> EntriesSpec L -> NumberSpec L -> fair ord -> Forall field_name bs -> bs <> [] -> hd "" bs <> "addedField" ->
  in_wide t -> not_nested t -> parse_conditions_tree L ord (wide_spelled t) u = (Ok n, u') -> prepare_node L p n = Ok n' ->
  rs_ready s = true -> rs_prepared s = Some r -> ru_tree r = Some n' ->
  exists res, rule_to_mongo L ord g (dotted bs) s k = (Ok res, s, k) /\
    forall d D m e b x s' e', wide_suits L p t d -> at_path bs D (Some d) -> at_path ["addedField"] D None -> m_raw m = Some d ->
      test_conditions L ord g s (mkEst m e) = (Some ((b, x), s'), e') -> selected_by L res D b.
Proof.
  intros HP HE HN HO HB HBN HBA HF HNN HL HPR H1 H2 H3. destruct (pipeline_agrees ord u u' p bs t n n' HP HE HN HO HB HBN HBA HF HNN HL HPR) as (q & ss & HQ & _ & HA).
  exists (match ss with [] => Simple q | _ => Aggregate (ss ++ [BDoc [("$match", q)]]) end). split.
  - unfold rule_to_mongo. rewrite H1, H2. unfold prepared_query. rewrite H3, HQ. cbn [rbind snd fst]. destruct ss; reflexivity.
  - intros d D m e b x s' e' HS HD HAD HR HT. apply (HA d D m b); auto. unfold test_conditions, ensure_prepared, mbind in HT. rewrite H1 in HT. cbn in HT. rewrite H2, H3 in HT.
    destruct (eval L ord n' (mkEst m e)) as [[[b' x']|] e''] eqn:EV; [|discriminate]. cbn in HT. injection HT as <- <- <- <-. exists ord, e, x', e''. auto.
Qed.
End WithLib.
