(** The loader reads exactly the trees of the grammar. *)
From Coq Require Import List String Ascii Bool Arith ZArith Permutation Lia.
From Verif Require Import Base GoStr GoStr_facts GoFloat Types Json StrUtils Validate Prepare Parse Spec_Tree Match_proofs
  Spec_Leaf Number_proofs Leaf_proofs Spec_Validate Validate_proofs Spec_Load Lifecycle Spec_Lifecycle Lifecycle_proofs Load_proofs Load_order
  Spec_Names Spec_Grammar.
Import ListNotations.
Open Scope string_scope.
Local Arguments String.prefix : simpl never.

(** ** Entries of maps *)
Lemma map_entries_distinct es v : entries_of v es -> go_value v -> NoDup (map fst es).
Proof.
  intros [->| ->] HG; inversion HG as [| | | | | |? HN HL|? HN HL]; subst; auto.
  rewrite map_map in HN. cbn [fst] in HN. apply NoDup_map_inv with (f := GStr). rewrite map_map. auto.
Qed.
Lemma map_entries_values es v : entries_of v es -> go_value v -> Forall (fun kv => go_value (snd kv)) es.
Proof.
  intros [->| ->] HG; inversion HG as [| | | | | |? HN HL|? HN HL]; subst; auto.
  rewrite Forall_map in HL. auto.
Qed.
Lemma string_keys_only {A} (m : list (iface * A)) acc m' : map_to_string_keys m acc = Ok m' -> exists es, m = map (fun e => (GStr (fst e), snd e)) es.
Proof.
  revert acc. induction m as [|(k, a) m IH]; intros acc H; cbn [map_to_string_keys] in H; [exists []; auto|].
  apply rbind_ok in H. destruct H as (s & HS & H). destruct (IH _ H) as [es ->]. destruct k; try discriminate.
  injection HS as ->. exists ((s, a) :: es). auto.
Qed.
Lemma string_keys_new {A} (es : list (string * A)) : NoDup (keys es) -> map_to_string_keys (map (fun e => (GStr (fst e), snd e)) es) [] = Ok es.
Proof. intro H. rewrite string_keys; auto. Qed.
Lemma map_keys_strings es : keys es = @map (string * iface) _ fst es.
Proof. auto. Qed.

(** ** The keys of conditions *)
Lemma contains_in l x : contains_string l x = true <-> In x l.
Proof.
  unfold contains_string. rewrite existsb_exists. split.
  - intros (y & HI & E). apply String.eqb_eq in E. subst. auto.
  - intro H. exists x. split; auto. apply String.eqb_refl.
Qed.
Lemma contains_perm l l' x : Permutation l l' -> contains_string l x = contains_string l' x.
Proof.
  intro H. apply eq_true_iff_eq. rewrite !contains_in. split; intro HI; [eapply Permutation_in; eauto|eapply Permutation_in; [apply Permutation_sym; eauto|auto]].
Qed.
Lemma has_key ks a b : contains_string ks a || contains_string ks b = true <-> exists k, spelled k b a /\ In k ks.
Proof.
  rewrite orb_true_iff, !contains_in. split.
  - intros [H|H]; eexists; split; try exact H; unfold spelled; auto.
  - intros (k & [->| ->] & HI); auto.
Qed.
Ltac spell H := unfold att_key, method_key, value_key, int_key, float_key, return_key, spelled in H.
Fixpoint distinctb (l : list string) : bool := match l with [] => true | x :: l' => negb (contains_string l' x) && distinctb l' end.
Lemma distinctb_ok l : distinctb l = true -> NoDup l.
Proof.
  induction l as [|x l IH]; simpl; intro H; constructor; apply andb_true_iff in H; destruct H as [H1 H2]; auto.
  rewrite <- contains_in. destruct (contains_string l x); discriminate.
Qed.
Ltac categories HA HM HV HR :=
  spell HA; spell HM; destruct HA as [->| ->], HM as [->| ->];
  (destruct HR as [->|(?r & -> & HR)]; [|spell HR; destruct HR as [->| ->]]);
  (destruct HV as [|?v HV|?v ?i HV ?HI|?v ?f HV ?HF|?v ?i ?f HV ?HI ?HF];
   [|spell HV; destruct HV as [->| ->]|spell HV; destruct HV as [->| ->]; spell HI; destruct HI as [->| ->]
    |spell HV; destruct HV as [->| ->]; spell HF; destruct HF as [->| ->]
    |spell HV; destruct HV as [->| ->]; spell HI; destruct HI as [->| ->]; spell HF; destruct HF as [->| ->]]).
Lemma distinct_categories a m : att_key a -> method_key m -> forall vs rs, value_keys vs -> (rs = [] \/ exists r, rs = [r] /\ return_key r) ->
  NoDup (a :: m :: vs ++ rs).
Proof. intros HA HM vs rs HV HR. apply distinctb_ok. categories HA HM HV HR; reflexivity. Qed.
Lemma is_condition_perm {A B} (es : list (string * A)) (es' : list (string * B)) : Permutation (map fst es) (map fst es') -> is_condition_node es = is_condition_node es'.
Proof.
  intro HP. unfold is_condition_node. change (keys es) with (map fst es). change (keys es') with (map fst es').
  cbv zeta. rewrite (Permutation_length HP), !(contains_perm _ _ _ HP). reflexivity.
Qed.
Lemma is_condition_iff {A} (es : list (string * A)) : NoDup (map fst es) -> is_condition_node es = true <-> condition_keys (map fst es).
Proof.
  intro HN. split.
  - unfold is_condition_node. change (keys es) with (map fst es). set (ks := map fst es) in *. clearbody ks. intro H.
    pose proof (has_key ks "Attribute" "attribute") as HA. pose proof (has_key ks "Method" "method") as HM. pose proof (has_key ks "Value" "value") as HV.
    pose proof (has_key ks "ValueInt" "valueInt") as HI. pose proof (has_key ks "ValueFloat" "valueFloat") as HF.
    pose proof (has_key ks "ReturnValueJsonpath" "returnValueJsonpath") as HR. cbv zeta in H.
    revert HA HM HV HI HF HR H.
    generalize (contains_string ks "Attribute" || contains_string ks "attribute"). intro ba.
    generalize (contains_string ks "Method" || contains_string ks "method"). intro bm.
    generalize (contains_string ks "Value" || contains_string ks "value"). intro bv.
    generalize (contains_string ks "ValueInt" || contains_string ks "valueInt"). intro bi.
    generalize (contains_string ks "ValueFloat" || contains_string ks "valueFloat"). intro bf.
    generalize (contains_string ks "ReturnValueJsonpath" || contains_string ks "returnValueJsonpath"). intro br.
    intros HA HM HV HI HF HR H.
    assert (HRS : exists rs, (rs = [] \/ exists r, rs = [r] /\ return_key r) /\ List.length rs = (if br then 1 else 0)%nat /\ incl rs ks).
    { destruct br; [|exists []; repeat split; auto; intros ? []]. destruct (proj1 HR eq_refl) as (r & HR1 & HR2).
      exists [r]. split; [right; exists r; auto|]. split; auto. intros ? [<-|[]]; auto. }
    destruct HRS as (rs & HR1 & HR2 & HR3).
    assert (HG : exists a m, att_key a /\ In a ks /\ method_key m /\ In m ks).
    { assert (ba = true /\ bm = true) as [-> ->] by (destruct ba, bm; rewrite ?andb_false_r, ?andb_false_l in H; cbn in H; auto; discriminate).
      destruct (proj1 HA eq_refl) as (a & A1 & A2). destruct (proj1 HM eq_refl) as (m & M1 & M2). eauto 8. }
    destruct HG as (a & m & A1 & A2 & M1 & M2).
    assert (HVS : exists vs, value_keys vs /\ incl vs ks /\ List.length ks = (2 + List.length vs + List.length rs)%nat).
    { rewrite HR2. clear HA HM HR. rewrite !orb_true_iff, !andb_true_iff, !Nat.eqb_eq in H.
      destruct H as [[[[H|H]|H]|H]|H].
      - exists []. split; [constructor|]. split; [intros ? []|]. simpl. tauto.
      - destruct H as (((H & _) & _) & H1). destruct (proj1 HV H1) as (v & V1 & V2). exists [v]. split; [constructor; auto|]. split; [intros ? [<-|[]]; auto|]. simpl. tauto.
      - destruct H as ((((H & _) & _) & H1) & H2). destruct (proj1 HV H1) as (v & V1 & V2). destruct (proj1 HI H2) as (i & I1 & I2).
        exists [v; i]. split; [constructor; auto|]. split; [intros ? [<-|[<-|[]]]; auto|]. simpl. tauto.
      - destruct H as ((((H & _) & _) & H1) & H2). destruct (proj1 HV H1) as (v & V1 & V2). destruct (proj1 HF H2) as (i & I1 & I2).
        exists [v; i]. split; [apply vk_float; auto|]. split; [intros ? [<-|[<-|[]]]; auto|]. simpl. tauto.
      - destruct H as (((((H & _) & _) & H1) & H2) & H3). destruct (proj1 HV H1) as (v & V1 & V2). destruct (proj1 HI H2) as (i & I1 & I2). destruct (proj1 HF H3) as (f & F1 & F2).
        exists [v; i; f]. split; [constructor; auto|]. split; [intros ? [<-|[<-|[<-|[]]]]; auto|]. simpl. tauto. }
    destruct HVS as (vs & V1 & V2 & V3). exists a, m, vs, rs. split; auto. split; auto. split; auto. split; auto.
    apply Permutation_sym. apply NoDup_Permutation_bis.
    + apply distinct_categories; auto.
    + simpl. rewrite app_length. lia.
    + intros x [<-|[<-|HX]]; auto. apply in_app_or in HX. destruct HX; auto.
  - intros (a & m & vs & rs & HA & HM & HV & HR & HP). 
    rewrite (is_condition_perm es (map (fun k => (k, tt)) (a :: m :: vs ++ rs)%list)) by (rewrite map_map; cbn [fst]; rewrite map_id; exact HP).
    clear HP HN es. categories HA HM HV HR; reflexivity.
Qed.

(** ** The texts of a condition *)
Section WithLib.
Variable L : Lib.

Definition attb k := is_any k ["attribute"; "Attribute"].
Definition metb k := is_any k ["method"; "Method"].
Definition valb k := is_any k ["value"; "Value"].
Definition retb k := is_any k ["returnValueJsonpath"; "ReturnValueJsonpath"].
Lemma any_two k a b : is_any k [a; b] = true <-> spelled k a b.
Proof. rewrite is_any_in. unfold spelled. simpl. intuition auto. Qed.
Definition one_kind (is : string -> Prop) (ks : list string) : Prop := forall k k', In k ks -> In k' ks -> is k -> is k' -> k = k'.
Definition one_kindb (isb : string -> bool) (ks : list string) : bool :=
  forallb (fun k => forallb (fun k' => negb (isb k && isb k') || String.eqb k k') ks) ks.
Lemma one_kindb_ok is isb ks : (forall k, isb k = true <-> is k) -> one_kindb isb ks = true -> one_kind is ks.
Proof.
  intros HB H k k' HK HK' S S'. unfold one_kindb in H. rewrite forallb_forall in H. specialize (H _ HK). rewrite forallb_forall in H. specialize (H _ HK').
  apply HB in S, S'. rewrite S, S' in H. apply String.eqb_eq. exact H.
Qed.
Lemma condition_one_kind ks : condition_keys ks ->
  one_kind att_key ks /\ one_kind method_key ks /\ one_kind value_key ks /\ one_kind return_key ks /\
  (exists k, att_key k /\ In k ks) /\ (exists k, method_key k /\ In k ks).
Proof.
  intros (a & m & vs & rs & HA & HM & HV & HR & HP).
  assert (HI : forall is, one_kind is (a :: m :: vs ++ rs) -> one_kind is ks).
  { intros is H k k' HK HK'. apply H; eapply Permutation_in; eauto. }
  assert (HE : forall k, In k (a :: m :: vs ++ rs) -> In k ks) by (intros k HK; eapply Permutation_in; [apply Permutation_sym; eauto|auto]).
  split; [|split; [|split; [|split; [|split; [exists a; split; auto; apply HE; simpl; auto|exists m; split; auto; apply HE; simpl; auto]]]]]; apply HI; clear HI HE HP.
  - apply (one_kindb_ok _ attb); [exact (fun k => any_two k _ _)|]. categories HA HM HV HR; reflexivity.
  - apply (one_kindb_ok _ metb); [exact (fun k => any_two k _ _)|]. categories HA HM HV HR; reflexivity.
  - apply (one_kindb_ok _ valb); [exact (fun k => any_two k _ _)|]. categories HA HM HV HR; reflexivity.
  - apply (one_kindb_ok _ retb); [exact (fun k => any_two k _ _)|]. categories HA HM HV HR; reflexivity.
Qed.

(** the values of a kind of keys *)
Fixpoint pick (is : string -> bool) (es : list (string * iface)) : option iface :=
  match es with [] => None | (k, v) :: es' => if is k then Some v else pick is es' end.
Lemma pick_given is isb es : (forall k, isb k = true <-> is k) -> one_kind is (map fst es) -> NoDup (map fst es) -> forall v, pick isb es = Some v <-> given is es v.
Proof.
  intros HB HO HN v. induction es as [|(k, w) es IH]; simpl.
  - split; [discriminate|]. intros (k & _ & []).
  - inversion HN as [|? ? N1 N2]; subst. assert (HO' : one_kind is (map fst es)) by (intros x y HX HY; apply HO; right; auto).
    specialize (IH HO' N2). destruct (isb k) eqn:E.
    + split.
      * intro H. injection H as ->. exists k. split; [apply HB; auto|left; auto].
      * intros (k' & HK & [HI|HI]); [injection HI as -> ->; auto|]. exfalso. apply N1.
        assert (k = k') as ->; [|apply in_map_iff; exists (k', v); auto].
        apply HO; auto; [left; auto|right; apply in_map_iff; exists (k', v); auto|apply HB; auto].
    + rewrite IH. split.
      * intros (k' & HK & HI). exists k'. split; auto. right; auto.
      * intros (k' & HK & [HI|HI]); [injection HI as -> ->; apply HB in HK; congruence|]. exists k'. auto.
Qed.
Lemma pick_lacks is isb es : (forall k, isb k = true <-> is k) -> pick isb es = None <-> lacks is es.
Proof.
  intro HB. induction es as [|(k, w) es IH]; simpl.
  - split; auto. intros _ v (k & _ & []).
  - destruct (isb k) eqn:E.
    + split; [discriminate|]. intro H. exfalso. apply (H w). exists k. split; [apply HB; auto|left; auto].
    + rewrite IH. split.
      * intros H v (k' & HK & [HI|HI]); [injection HI as -> ->; apply HB in HK; congruence|]. apply (H v). exists k'. auto.
      * intros H v (k' & HK & HI). apply (H v). exists k'. split; auto. right; auto.
Qed.


Definition ret_texts (x : iface) : res (list (string * string)) :=
  match x with GMapS m => strings_of_map m | GMapI m => do m' <- map_to_string_keys m []; strings_of_map m' | _ => Ok [] end.
Definition text_field (o : option iface) (old new : string) : Prop :=
  match o with None => new = old | Some x => x = GStr new end.
Definition read_as (es : list (string * iface)) (c c' : condnode) : Prop :=
  text_field (pick attb es) (cn_attr c) (cn_attr c') /\ text_field (pick metb es) (cn_method c) (cn_method c') /\
  cn_value c' = match pick valb es with None => cn_value c | Some x => go_fmt L x end /\
  match pick retb es with None => cn_ret c' = cn_ret c | Some x => exists m, ret_texts x = Ok m /\ cn_ret c' = Some m end.
Lemma pick_none is isb es : (forall k, isb k = true <-> is k) -> (forall k, In k (map fst es) -> ~ is k) -> pick isb es = None.
Proof. intros HB H. apply (pick_lacks is isb es HB). intros v (k & HK & HI). apply (H k); auto. apply in_map_iff. exists (k, v). auto. Qed.
Lemma read_iff es : NoDup (map fst es) -> one_kind att_key (map fst es) -> one_kind method_key (map fst es) -> one_kind value_key (map fst es) -> one_kind return_key (map fst es) ->
  forall c c', read_condition L es c = Ok c' <-> read_as es c c'.
Proof.
  induction es as [|(k, x) es IH]; intros HN OA OM OV OR c c'.
  - cbn [read_condition]. unfold read_as. simpl. split.
    + intro H. injection H as <-. auto.
    + destruct c, c'. simpl. intros (-> & -> & -> & ->). auto.
  - inversion HN as [|? ? N1 N2]; subst. cbn [map fst] in *.
    assert (HO : forall is, one_kind is (k :: map fst es) -> one_kind is (map fst es)) by (intros is H a b HA HB; apply H; right; auto).
    specialize (IH N2 (HO _ OA) (HO _ OM) (HO _ OV) (HO _ OR)).
    assert (HX : forall is isb, (forall k, isb k = true <-> is k) -> one_kind is (k :: map fst es) -> is k -> pick isb es = None).
    { intros is isb HB H HK. apply (pick_none is); auto. intros k' HI HK'. apply N1. rewrite (H k k'); auto; [left; auto|right; auto]. }
    pose proof (HX att_key attb (fun k => any_two k _ _) OA) as XA. pose proof (HX method_key metb (fun k => any_two k _ _) OM) as XM.
    pose proof (HX value_key valb (fun k => any_two k _ _) OV) as XV. pose proof (HX return_key retb (fun k => any_two k _ _) OR) as XR.
    clear HX HO HN OA OM OV OR N1 N2. cbn [read_condition]. unfold read_as. cbn [pick].
    fold (attb k). fold (metb k). fold (valb k). fold (retb k). fold (ret_texts x).
    assert (EX : forall B (r : res condnode) (f : condnode -> res B) b, rbind r f = Ok b <-> exists a, r = Ok a /\ f a = Ok b).
    { intros B r f b. split; [apply rbind_ok|]. intros (a & -> & H). exact H. }
    destruct (attb k) eqn:EA.
    { assert (HA : att_key k) by (apply any_two; auto). specialize (XA HA).
      assert (metb k = false /\ valb k = false /\ retb k = false) as (-> & -> & ->) by (spell HA; destruct HA as [->| ->]; auto).
      cbn [text_field]. split.
      - intro H. apply EX in H. destruct H as (c1 & H1 & H). apply rbind_ok in H1. destruct H1 as (s & HS & H1). injection H1 as <-.
        apply IH in H. destruct H as (E1 & E2 & E3 & E4). rewrite XA in E1. cbn [text_field cn_attr cn_method cn_value cn_ret] in *. subst s.
        destruct x; try discriminate. injection HS as ->. auto.
      - intros (-> & E2 & E3 & E4). apply EX. exists (mkCondnode (cn_attr c') (cn_method c) (cn_value c) (cn_ret c)). split; [auto|].
        apply IH. unfold read_as. rewrite XA. simpl. auto. }
    destruct (metb k) eqn:EM.
    { assert (HA : method_key k) by (apply any_two; auto). specialize (XM HA).
      assert (valb k = false /\ retb k = false) as (-> & ->) by (spell HA; destruct HA as [->| ->]; auto).
      cbn [text_field]. split.
      - intro H. apply EX in H. destruct H as (c1 & H1 & H). apply rbind_ok in H1. destruct H1 as (s & HS & H1). injection H1 as <-.
        apply IH in H. destruct H as (E1 & E2 & E3 & E4). rewrite XM in E2. cbn [text_field cn_attr cn_method cn_value cn_ret] in *. subst s.
        destruct x; try discriminate. injection HS as ->. auto.
      - intros (E1 & -> & E3 & E4). apply EX. exists (mkCondnode (cn_attr c) (cn_method c') (cn_value c) (cn_ret c)). split; [auto|].
        apply IH. unfold read_as. rewrite XM. simpl. auto. }
    destruct (valb k) eqn:EV.
    { assert (HA : value_key k) by (apply any_two; auto). specialize (XV HA).
      assert (retb k = false) as -> by (spell HA; destruct HA as [->| ->]; auto).
      split.
      - intro H. cbn [rbind] in H. apply IH in H. destruct H as (E1 & E2 & E3 & E4). rewrite XV in E3. cbn [text_field cn_attr cn_method cn_value cn_ret] in *. auto.
      - intros (E1 & E2 & E3 & E4). cbn [rbind]. apply IH. unfold read_as. rewrite XV. simpl. auto. }
    destruct (retb k) eqn:ER.
    { assert (HA : return_key k) by (apply any_two; auto). specialize (XR HA). split.
      - intro H. apply EX in H. destruct H as (c1 & H1 & H). apply rbind_ok in H1. destruct H1 as (m & HS & H1). injection H1 as <-.
        apply IH in H. destruct H as (E1 & E2 & E3 & E4). rewrite XR in E4. cbn [text_field cn_attr cn_method cn_value cn_ret] in *. eauto 8.
      - intros (E1 & E2 & E3 & (m & HM & E4)). rewrite HM. cbn [rbind]. apply IH. unfold read_as. rewrite XR. simpl. auto. }
    cbn [rbind]. rewrite IH. reflexivity.
Qed.

Lemma strings_of m ts : strings_of_map m = Ok ts <-> m = map (fun e => (fst e, GStr (snd e))) ts.
Proof.
  revert ts. induction m as [|(k, x) m IH]; intro ts; unfold strings_of_map; cbn [rmapM].
  - split; [intro H; injection H as <-; auto|]. destruct ts; [auto|discriminate].
  - split.
    + intro H. apply rbind_ok in H. destruct H as (e & HE & H). apply rbind_ok in H. destruct H as (es & HE2 & H). injection H as <-.
      apply rbind_ok in HE. destruct HE as (s & HS & HE). injection HE as <-. cbn [fst snd] in *. destruct x; try discriminate. injection HS as ->.
      simpl. f_equal. apply IH. exact HE2.
    + destruct ts as [|(k', s) ts]; [discriminate|]. intro H. injection H as -> -> H. cbn [fst snd as_string rbind].
      apply IH in H. unfold strings_of_map in H. rewrite H. auto.
Qed.
Lemma ret_texts_iff x m : go_value x -> ret_texts x = Ok m <->
  (exists ts, entries_of x (map (fun e => (fst e, GStr (snd e))) ts) /\ Some m = Some ts) \/ (~ is_map x /\ Some m = Some []).
Proof.
  intro HG. destruct x as [| | | | |l|o|o]; cbn [ret_texts].
  1-6: split; [intro H; injection H as <-; right; split; auto; intros [[? H]|[? H]]; discriminate|];
       intros [(ts & [H|H] & _)|[_ H]]; try discriminate; injection H as ->; auto.
  - rewrite strings_of. split.
    + intros ->. left. exists m. split; auto. left; auto.
    + intros [(ts & [H|H] & E)|[H _]]; try discriminate; [injection H as ->; injection E as ->; auto|]. exfalso. apply H. left. eauto.
  - split.
    + intro H. apply rbind_ok in H. destruct H as (m' & H1 & H). apply strings_of in H. subst m'. left. exists m. split; auto. right.
      destruct (string_keys_only _ _ _ H1) as [es ->]. rewrite string_keys_new in H1; [injection H1 as ->; auto|].
      pose proof (map_entries_distinct es (GMapI (map (fun e => (GStr (fst e), snd e)) es)) (or_intror eq_refl) HG). auto.
    + intros [(ts & [H|H] & E)|[H _]]; try discriminate; [|exfalso; apply H; right; eauto]. injection H as ->. injection E as ->.
      rewrite string_keys_new.
      * cbn [rbind]. apply strings_of. auto.
      * exact (map_entries_distinct _ _ (or_intror eq_refl) HG).
Qed.

Lemma condition_texts es cn : NoDup (map fst es) -> Forall (fun kv => go_value (snd kv)) es -> condition_keys (map fst es) ->
  (read_condition L es (mkCondnode "" "" "" None) = Ok cn <-> condition_text L es (cn_attr cn) (cn_method cn) (cn_value cn) (cn_ret cn)).
Proof.
  intros HN HG HC. destruct (condition_one_kind _ HC) as (OA & OM & OV & OR & (ka & KA1 & KA2) & (km & KM1 & KM2)).
  rewrite (read_iff es HN OA OM OV OR). unfold read_as. cbn [cn_attr cn_method cn_value cn_ret].
  pose proof (pick_given att_key attb es (fun k => any_two k _ _) OA HN) as PA. pose proof (pick_given method_key metb es (fun k => any_two k _ _) OM HN) as PM.
  pose proof (pick_given value_key valb es (fun k => any_two k _ _) OV HN) as PV. pose proof (pick_given return_key retb es (fun k => any_two k _ _) OR HN) as PR.
  pose proof (pick_lacks value_key valb es (fun k => any_two k _ _)) as LV. pose proof (pick_lacks return_key retb es (fun k => any_two k _ _)) as LR.
  assert (HS : forall is isb, (forall v, pick isb es = Some v <-> given is es v) -> (exists k, is k /\ In k (map fst es)) -> exists x, pick isb es = Some x).
  { intros is isb HP (k & HK & HI). apply in_map_iff in HI. destruct HI as ((k', v) & <- & HI). exists v. apply HP. exists k'. auto. }
  destruct (HS _ _ PA (ex_intro _ ka (conj KA1 KA2))) as [xa EA]. destruct (HS _ _ PM (ex_intro _ km (conj KM1 KM2))) as [xm EM]. clear HS.
  rewrite EA, EM. cbn [text_field]. split.
  - intros (-> & -> & E3 & E4). constructor.
    + apply PA. auto.
    + apply PM. auto.
    + destruct (pick valb es) as [x|]; [right; exists x; split; auto; apply PV; auto|left; split; auto; apply LV; auto].
    + destruct (pick retb es) as [x|] eqn:ER; [|left; split; auto; apply LR; auto]. right. destruct E4 as (m & HM & ->).
      assert (HX : given return_key es x) by (apply PR; auto). exists x. split; auto. apply ret_texts_iff; auto.
      destruct HX as (k & _ & HI). rewrite Forall_forall in HG. exact (HG _ HI).
  - intros [HA HM HVV HRR]. apply PA in HA. apply PM in HM. split; [congruence|]. split; [congruence|]. split.
    + destruct HVV as [[HV ->]|(v & HV & ->)]; [apply LV in HV; rewrite HV; auto|apply PV in HV; rewrite HV; auto].
    + destruct HRR as [[HV ->]|(v & HV & HT)]; [apply LR in HV; rewrite HV; auto|]. pose proof HV as (k & _ & HI). apply PR in HV. rewrite HV.
      rewrite Forall_forall in HG. specialize (HG _ HI). cbn [snd] in HG.
      assert (HE : exists m, cn_ret cn = Some m) by (destruct HT as [(ts & _ & ->)|[_ ->]]; eauto). destruct HE as [m EM']. rewrite EM' in *.
      exists m. split; auto. apply ret_texts_iff; auto.
Qed.

(** ** What is stored for conditions *)
Lemma returns_stored_iff strip (query : string -> option (JQ L) -> Prop) f m r : (forall p q, query p q <-> q = f p) ->
  returns_stored L strip query m r <->
  r = mkRet (Some (map (fun kv => (fst kv, strip (snd kv))) m)) (Some m) (map (fun kv => (fst kv, f (strip (snd kv)))) m)
        (map (fun kv => (fst kv, has_prefix (snd kv) "jsonpath:$RELATIVE")) m).
Proof.
  intro HQ. unfold returns_stored. destruct r as [paths orig prep rel]. cbn [r_orig r_paths r_prep r_rel].
  assert (H1 : Forall2 (fun e q => fst q = fst e /\ query (strip (snd e)) (snd q)) m prep <-> prep = map (fun kv => (fst kv, f (strip (snd kv)))) m).
  { split.
    - induction 1 as [|e (k, q) m prep [E1 E2] HF IH]; simpl; [auto|]. cbn [fst snd] in *. subst k. apply HQ in E2. subst q prep. auto.
    - intros ->. induction m as [|e m IH]; simpl; constructor; auto. cbn [fst snd]. split; auto. apply HQ. auto. }
  assert (H2 : Forall2 (fun (e : string * string) (b : string * bool) => fst b = fst e /\ (snd b = true <-> starts "jsonpath:$RELATIVE" (snd e))) m rel <->
    rel = map (fun kv => (fst kv, has_prefix (snd kv) "jsonpath:$RELATIVE")) m).
  { clear. split.
    - induction 1 as [|e (k, q) m rel [E1 E2] HF IH]; [auto|]. cbn [fst snd map] in *. subst k rel. f_equal. f_equal.
      apply eq_true_iff_eq. rewrite E2. symmetry. apply Load_proofs.starts_iff.
    - intros ->. induction m as [|e m IH]; cbn [map]; constructor; auto. cbn [fst snd]. split; auto. apply Load_proofs.starts_iff. }
  rewrite H1, H2. split; [intros (-> & -> & -> & ->); auto|]. intro H. injection H as -> -> -> ->. auto.
Qed.
Lemma query_for_iff path q : query_for L path q <-> q = match prepare_query L path with Ok q => q | _ => None end.
Proof.
  unfold prepare_query. set (p := replace_all path "$RELATIVE" "$").
  assert (HE : (if String.eqb p "$*" then "$.*" else p) = p \/ p = "$*") by (destruct (String.eqb p "$*") eqn:E; auto; right; apply String.eqb_eq; auto).
  destruct (String.eqb p "$*") eqn:E.
  - apply String.eqb_eq in E. cbn [contains]. change (contains "$.*" "$KEY" || contains "$.*" "$VALUE") with false. cbv iota.
    split.
    + intro H. destruct H as [H|H|H]; fold p in H; cbv zeta in H.
      * destruct (jp_prepare L "$.*"); auto.
      * destruct (jp_prepare L "$.*"); auto.
      * destruct H as (_ & _ & H). congruence.
    + intro H. replace q with (jp_prepare L "$.*") by (rewrite H; destruct (jp_prepare L "$.*"); auto). apply qf_all. exact E.
  - apply String.eqb_neq in E. destruct (contains p "$KEY" || contains p "$VALUE") eqn:EC.
    + apply orb_true_iff in EC. rewrite !contains_iff in EC. fold (occurs "$KEY" p) (occurs "$VALUE" p) in EC. split.
      * intro H. destruct H as [H|H|H]; fold p in H; cbv zeta in H; auto. tauto.
      * intros ->. apply qf_entry. exact EC.
    + apply orb_false_iff in EC. destruct EC as [EC1 EC2].
      assert (~ occurs "$KEY" p) by (intro H; apply contains_iff in H; congruence). assert (~ occurs "$VALUE" p) by (intro H'; apply contains_iff in H'; congruence).
      split.
      * intro HQ. destruct HQ as [HQ|HQ|HQ]; fold p in HQ |- *; cbv zeta in HQ; [tauto|congruence|]. destruct (jp_prepare L p); auto.
      * intro HQ. replace q with (jp_prepare L p) by (rewrite HQ; destruct (jp_prepare L p); auto). apply qf_path. cbv zeta. auto.
Qed.
Lemma condition_returns_iff ret r : Spec_Grammar.condition_returns L ret r <-> r = c_ret (condition_from_node L (mkCondnode "" "" "" ret)).
Proof.
  unfold Spec_Grammar.condition_returns, condition_from_node. cbn [cn_ret]. destruct ret as [m|]; [|reflexivity]. cbn [c_ret].
  apply (returns_stored_iff (fun s => replace_first s "jsonpath:$" "$")). intros. reflexivity.
Qed.
Lemma stored_iff cn c : validate_condition L (condition_from_node L cn) = Ok c <-> condition_stored L (cn_attr cn) (cn_method cn) (cn_value cn) (cn_ret cn) c.
Proof.
  set (r := c_ret (condition_from_node L (mkCondnode "" "" "" (cn_ret cn)))).
  assert (EW : condition_from_node L cn = written L (cn_attr cn) (cn_method cn) (cn_value cn) r) by reflexivity.
  assert (HF : forall value, (exists x, quantity L value x /\ float_with_units L value = Some x) \/ (not_number L value /\ float_with_units L value = None)).
  { intro value. destruct (float_with_units L value) as [x|] eqn:E; [left; exists x; split; auto; apply number_iff; auto|right; split; auto; apply not_number_iff; auto]. }
  split.
  - intro H. assert (HA : acceptable L (cn_attr cn) (cn_method cn) (cn_value cn)) by (apply (condition_accepted L _ _ _ r); rewrite <- EW; eauto).
    apply validate_ok in H. destruct H as (-> & _). rewrite EW. constructor; try reflexivity; auto; cbn [c_num written no_num n_int n_float or_else c_ret c_value c_lab c_obj c_jp c_orig].
    + destruct (parse_int (cn_value cn)); auto.
    + destruct (HF (cn_value cn)) as [(x & HX & ->)|[HX ->]]; eauto.
    + apply condition_returns_iff. reflexivity.
  - intros [HA E1 E2 E3 E4 E5 [E6 E6'] (E7 & E8 & E9 & E10) E11]. apply (condition_accepted L _ _ _ r) in HA. destruct HA as [c' HA]. rewrite EW, HA. f_equal.
    apply validate_ok in HA. destruct HA as (-> & _). cbn [c_attr c_method c_value c_num written no_num n_int n_float n_regex n_string_regex or_else c_ret c_lab c_obj c_jp c_orig].
    apply condition_returns_iff in E11. fold r in E11.
    destruct c as [at' me va [ni nf nr ns] la ob jp re og]. cbn in *. subst. f_equal. f_equal.
    + destruct (parse_int (cn_value cn)); auto.
    + destruct (HF (cn_value cn)) as [(x & HX & EX)|[HX EX]]; rewrite EX; destruct E5 as [(y & HY & ->)|[HY ->]]; auto; cbn [or_else].
      * f_equal. eapply quantity_fun; eauto.
      * exfalso. exact (HY _ HX).
      * exfalso. exact (HX _ HY).
Qed.

Lemma node_condition_iff es p n : NoDup (map fst es) -> Forall (fun kv => go_value (snd kv)) es -> condition_keys (map fst es) ->
  node_condition L es p = Ok n <->
  exists att method value ret c, condition_text L es att method value ret /\ condition_stored L att method value ret c /\
    ((In p [""; "condition"; "conditionsTree"] /\ n = NCond c) \/ (exists f, In (p, f) (list_words L) /\ n = f [NCond c])).
Proof.
  intros HN HG HC. unfold node_condition.
  assert (HW : forall c, (if is_any p [""; "condition"; "conditionsTree"] then Ok (NCond c) else node_by_parent L p [NCond c]) = Ok n <->
    (In p [""; "condition"; "conditionsTree"] /\ n = NCond c) \/ (exists f, In (p, f) (list_words L) /\ n = f [NCond c])).
  { intro c. destruct (is_any p [""; "condition"; "conditionsTree"]) eqn:E.
    - apply is_any_in in E. split; [intro H; injection H as <-; auto|]. intros [[_ ->]|(f & HF & _)]; auto.
      exfalso. simpl in E, HF. destruct HF as [HF|[HF|[HF|[]]]]; injection HF as HF _; subst p; intuition discriminate.
    - assert (HE : ~ In p [""; "condition"; "conditionsTree"]) by (intro H; apply is_any_in in H; congruence).
      unfold node_by_parent.
      destruct (is_any p ["AND"]) eqn:E1; [|destruct (is_any p ["OR"]) eqn:E2; [|destruct (is_any p ["NOT"]) eqn:E3]].
      + apply is_any_in in E1. destruct E1 as [<-|[]]. split; [intro H; injection H as <-; right; exists NAnd; simpl; auto|].
        intros [[H _]|(f & HF & ->)]; [tauto|]. simpl in HF. destruct HF as [HF|[HF|[HF|[]]]]; try discriminate. injection HF as <-. auto.
      + apply is_any_in in E2. destruct E2 as [<-|[]]. split; [intro H; injection H as <-; right; exists NOr; simpl; auto|].
        intros [[H _]|(f & HF & ->)]; [tauto|]. simpl in HF. destruct HF as [HF|[HF|[HF|[]]]]; try discriminate. injection HF as <-. auto.
      + apply is_any_in in E3. destruct E3 as [<-|[]]. split; [intro H; injection H as <-; right; exists (fun ns => NNot (last ns NNil)); simpl; auto|].
        intros [[H _]|(f & HF & ->)]; [tauto|]. simpl in HF. destruct HF as [HF|[HF|[HF|[]]]]; try discriminate. injection HF as <-. auto.
      + split; [discriminate|]. intros [[H _]|(f & HF & _)]; [tauto|]. exfalso. simpl in HF.
        destruct HF as [HF|[HF|[HF|[]]]]; injection HF as HF _; subst p; discriminate. }
  split.
  - intro H. apply rbind_ok in H. destruct H as (cn & H1 & H). apply rbind_ok in H. destruct H as (c & H2 & H).
    exists (cn_attr cn), (cn_method cn), (cn_value cn), (cn_ret cn), c. split; [apply condition_texts; auto|]. split; [apply stored_iff; auto|]. apply HW. auto.
  - intros (att & method & value & ret & c & HT & HS & H). set (cn := mkCondnode att method value ret).
    assert (H1 : read_condition L es (mkCondnode "" "" "" None) = Ok cn) by (apply condition_texts; auto). rewrite H1. cbn [rbind].
    assert (H2 : validate_condition L (condition_from_node L cn) = Ok c) by (apply stored_iff; auto). rewrite H2. cbn [rbind]. apply HW. auto.
Qed.
End WithLib.
