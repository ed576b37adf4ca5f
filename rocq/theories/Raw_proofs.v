(** What ANY and ALL range over when the message carries raw bytes. *)
From Coq Require Import List String Ascii Bool Arith ZArith Lia.
From Verif Require Import Base GoStr GoStr_facts GoFloat Types Json StrUtils Validate Prepare Parse Eval Spec_Tree Tree_proofs Tree_truth Spec_Extra Spec_Glob Glob_proofs Spec_Leaf Leaf_proofs Leaf_laws
  Spec_Names MongoNames_proofs Mongo_proofs Spec_Json Json_proofs Names_proofs Spec_Split Split_proofs Spec_Raw Raw_pieces.
Import ListNotations.
Open Scope string_scope.
Local Arguments String.prefix : simpl never.

(** ** Texts with parts exchanged *)
Lemma swapped_replaces w new a : forall s b, s = a ++ w ++ b -> (forall a' b', s = a' ++ w ++ b' -> (String.length a <= String.length a')%nat) ->
  replace_first s w new = a ++ new ++ b.
Proof.
  induction a as [|c a IH]; intros s b -> H.
  - cbn [append]. apply replace_first_app.
  - cbn [append replace_first]. destruct (String.prefix w (String c (a ++ w ++ b))) eqn:E.
    + apply prefix_iff in E. destruct E as [r E]. specialize (H "" r). cbn [append String.length] in H. specialize (H E). lia.
    + f_equal. apply IH; auto. intros a' b' E'. specialize (H (String c a') b'). cbn [append String.length] in H. rewrite E' in H. specialize (H eq_refl). lia.
Qed.
Lemma replaces_swapped w new s : first_swapped w new s (replace_first s w new).
Proof.
  induction s as [|c s IH].
  - cbn [replace_first]. destruct (String.prefix w "") eqn:E.
    + apply prefix_iff in E. destruct E as [r E]. destruct w; [|discriminate]. apply (fs_first "" new "" "" ""); auto. intros; simpl; lia.
    + apply fs_absent. intros (a & b & E'). destruct a; [|discriminate]. destruct w; [|discriminate]. vm_compute in E. discriminate.
  - cbn [replace_first]. destruct (String.prefix w (String c s)) eqn:E.
    + apply prefix_iff in E. destruct E as [r E]. rewrite E. rewrite drop_app. apply (fs_first w new (w ++ r) "" r); auto. intros; simpl; lia.
    + destruct IH as [HA|a b E' HM].
      * apply fs_absent. intros (a & b & E'). destruct a as [|x a].
        -- cbn [append] in E'. assert (String.prefix w (String c s) = true) by (apply prefix_iff; exists b; auto). congruence.
        -- injection E' as _ E'. apply HA. exists a, b. auto.
      * change (String c (a ++ new ++ b)) with (String c a ++ new ++ b). apply fs_first; [rewrite E'; reflexivity|].
        intros a' b' E2. destruct a' as [|x a'].
        -- cbn [append] in E2. assert (String.prefix w (String c s) = true) by (apply prefix_iff; exists b'; auto). congruence.
        -- injection E2 as _ E2. specialize (HM _ _ E2). simpl. lia.
Qed.
Theorem first_swapped_iff w new s t : first_swapped w new s t <-> replace_first s w new = t.
Proof.
  split.
  - intros [HA|a b E H]; [apply replace_first_absent; auto|eapply swapped_replaces; eauto].
  - intros <-. apply replaces_swapped.
Qed.

Notation sep := "],[".
Lemma replace_sep r : replace_all (sep ++ r) sep "," = "," ++ replace_all r sep ",".
Proof.
  unfold replace_all. change (sep ++ r) with (String "]" (String "," (String "[" r))). cbn [replace_all_from].
  replace (String.prefix _ _) with true by (symmetry; apply prefix_iff; exists r; reflexivity). reflexivity.
Qed.
Lemma sep_prefix x r : x <> "" -> ~ occurs sep x -> String.prefix sep (x ++ sep ++ r) = false.
Proof.
  intros NX HN. destruct (String.prefix sep (x ++ sep ++ r)) eqn:E; auto. exfalso. apply prefix_iff in E. destruct E as [q E].
  destruct x as [|c1 [|c2 [|c3 x]]]; [congruence|discriminate|discriminate|]. injection E as -> -> -> E. apply HN. exists "", x. reflexivity.
Qed.
Lemma replace_part part r : ~ occurs sep part -> replace_all (part ++ sep ++ r) sep "," = part ++ "," ++ replace_all r sep ",".
Proof.
  induction part as [|c part IH]; intro HN; [apply replace_sep|].
  change (String c part ++ sep ++ r) with (String c (part ++ sep ++ r)). rewrite keep_char; [cbn [append]; f_equal; apply IH; intro H; apply HN; apply occurs_cons; auto|].
  apply (sep_prefix (String c part) r); [discriminate|auto].
Qed.
Lemma replace_no_sep part : ~ occurs sep part -> replace_all part sep "," = part.
Proof. intro H. apply replace_absent. apply not_occurs. auto. Qed.
Lemma concat_cons w x y l : String.concat w (x :: y :: l) = x ++ w ++ String.concat w (y :: l).
Proof. reflexivity. Qed.
Theorem each_swapped_iff s t : each_swapped sep "," s t <-> replace_all s sep "," = t.
Proof.
  assert (F : forall parts, Forall (fun part => ~ occurs sep part) parts -> replace_all (String.concat sep parts) sep "," = String.concat "," parts).
  { intros parts HF. induction HF as [|x parts HX HF IH]; [reflexivity|]. destruct parts as [|y parts]; [apply replace_no_sep; auto|].
    rewrite !concat_cons, replace_part by auto. rewrite IH. reflexivity. }
  split.
  - intros (parts & HF & -> & ->). auto.
  - intros <-.
    assert (E : exists parts, Forall (fun part => ~ occurs sep part) parts /\ parts <> [] /\ s = String.concat sep parts).
    { remember (String.length s) as n eqn:EN. revert s EN. induction n as [n IH] using lt_wf_ind. intros s ->.
      destruct (contains s sep) eqn:EC.
      - apply contains_occurs in EC. pose proof (replaces_swapped sep "," s) as HS. remember (replace_first s sep ",") as t eqn:ET. destruct HS as [HN|a b E HM]; [tauto|].
        assert (LB : (String.length b < String.length s)%nat) by (rewrite E, !length_append; simpl; lia).
        destruct (IH _ LB b eq_refl) as (parts & HF & HNE & EB). exists (a :: parts). split; [|split; [discriminate|]].
        + constructor; auto. intros (a1 & a2 & EA). specialize (HM a1 (a2 ++ sep ++ b)). rewrite E, EA in HM. rewrite !append_assoc in HM. specialize (HM eq_refl). rewrite !length_append in HM. simpl in HM. lia.
        + destruct parts; [congruence|]. rewrite concat_cons, <- EB. auto.
      - exists [s]. split; [constructor; auto|split; [discriminate|reflexivity]]. intro H. apply contains_occurs in H. congruence. }
    destruct E as (parts & HF & _ & E). exists parts. split; auto. split; auto. rewrite E. auto.
Qed.

Section WithLib.
Variable L : Lib.

(** ** Lookups *)
Lemma raw_path_iff path q : raw_path path q <-> bytes_parent path = q.
Proof.
  unfold raw_path, bytes_parent. split.
  - intros (p1 & p2 & p3 & H1 & H2 & H3 & H4). apply first_swapped_iff in H1, H2, H3. rewrite H1, H2, H3. destruct H4 as [[-> ->]|[H4 ->]]; [reflexivity|].
    apply String.eqb_neq in H4. rewrite H4. auto.
  - intros <-. eexists _, _, _. split; [apply replaces_swapped|]. split; [apply replaces_swapped|]. split; [apply replaces_swapped|].
    destruct (String.eqb_spec (replace_first (replace_first (replace_first path "$RELATIVE." "$.") "$KEY." "$.") "$VALUE." "$.") "$RELATIVE*"); auto.
Qed.
Definition asked (m : message) (p : string) : option string * string :=
  if relative_parent p then (m_json_rel m, bytes_parent p) else (m_json m, p).
Lemma raw_asked_iff m path d q : raw_asked m path d q <-> asked m path = (d, q).
Proof.
  unfold raw_asked, asked. destruct (relative_parent path) eqn:E.
  - apply relative_parent_spec in E. split.
    + intros [(_ & -> & H)|(H & _)]; [|tauto]. apply raw_path_iff in H. congruence.
    + intro H. injection H as <- H. left. split; auto. split; auto. apply raw_path_iff. auto.
  - assert (N : ~ refers_to_element path) by (rewrite <- relative_parent_spec, E; discriminate). split.
    + intros [(H & _)|(_ & -> & ->)]; [tauto|auto].
    + intro H. injection H as <- <-. right. auto.
Qed.
Lemma fetch_get d q : fetch L d q = js_get_opt L d q.
Proof. unfold fetch, js_get_opt. destruct (js_get L d q) as [b [|]]; reflexivity. Qed.

(** with a comma, unless one of them is empty *)
Definition add (x y : string) : string := if String.eqb x "" then y else if String.eqb y "" then x else x ++ "," ++ y.
Lemma add_nonempty x y : x <> "" -> add x y <> "".
Proof. intro H. unfold add. apply String.eqb_neq in H. rewrite H. apply String.eqb_neq in H. destruct (String.eqb y ""); auto. destruct x; [congruence|discriminate]. Qed.
Lemma add_assoc x y z : add (add x y) z = add x (add y z).
Proof.
  assert (N : forall a b, String.eqb (a ++ "," ++ b) "" = false) by (intros a b; destruct a; reflexivity).
  unfold add. destruct (String.eqb x "") eqn:EX; [reflexivity|]. destruct (String.eqb y "") eqn:EY; [rewrite EX; reflexivity|].
  rewrite N. destruct (String.eqb z "") eqn:EZ; [rewrite EY; reflexivity|]. rewrite N, !append_assoc. reflexivity.
Qed.
Lemma concat_add l : Forall (fun t => t <> "") l -> String.concat "," l = fold_right add "" l.
Proof.
  induction 1 as [|t l HT HL IH]; [reflexivity|]. destruct l as [|u l].
  - cbn. unfold add. apply String.eqb_neq in HT. rewrite HT. reflexivity.
  - rewrite concat_cons, IH. change (fold_right add "" (t :: u :: l)) with (add t (fold_right add "" (u :: l))).
    assert (N : fold_right add "" (u :: l) <> "") by (cbn [fold_right]; apply add_nonempty; inversion HL; auto).
    unfold add at 2. apply String.eqb_neq in HT, N. rewrite HT, N. reflexivity.
Qed.
Definition present (r : option string) : string := match r with Some t => t | None => "" end.
Lemma joined_add rs : joined rs = fold_right add "" (map present rs).
Proof.
  unfold joined. rewrite concat_add.
  - induction rs as [|[t|] rs IH]; cbn [flat_map map filter fold_right List.app present]; auto.
    destruct (String.eqb_spec t "") as [->|N]; cbn [negb]; [exact IH|]. cbn [fold_right]. rewrite IH. reflexivity.
  - apply Forall_forall. intros t HT. apply filter_In in HT. destruct HT as [_ HT]. destruct (String.eqb_spec t ""); [discriminate|auto].
Qed.

Definition gathers (ps : list string) (m : message) (rs : list (option string)) : Prop :=
  Forall2 (fun path r => exists d q, raw_asked m path (Some d) q /\ r = fetch L d q) ps rs.
Lemma gather_found ps m : forall acc failed data f, gather L ps m acc failed = Some (data, f) ->
  exists rs, gathers ps m rs /\ data = add acc (joined rs) /\ f = match last (Some acc :: rs) None with Some _ => match rs with [] => failed | _ => false end | None => true end.
Proof.
  induction ps as [|p ps IH]; intros acc failed data f H; cbn [gather] in H.
  - injection H as <- <-. exists []. split; [constructor|]. split; [|reflexivity]. unfold add. destruct (String.eqb_spec acc ""); auto.
  - change (if relative_parent p then (m_json_rel m, bytes_parent p) else (m_json m, p)) with (asked m p) in H.
    destruct (asked m p) as [[d|] q] eqn:EA; [|discriminate]. apply raw_asked_iff in EA. rewrite <- fetch_get in H.
    destruct (fetch L d q) as [t|] eqn:ET; apply IH in H; destruct H as (rs & HG & -> & ->).
    + exists (Some t :: rs). split; [constructor; eauto|]. split.
      * rewrite (joined_add (Some t :: rs)). cbn [map fold_right present]. rewrite <- joined_add, <- add_assoc. f_equal.
      * cbn [last]. destruct rs; reflexivity.
    + exists (None :: rs). split; [constructor; eauto|]. split.
      * rewrite (joined_add (None :: rs)). cbn [map fold_right present]. rewrite <- joined_add. f_equal.
      * cbn [last]. destruct rs; reflexivity.
Qed.
Lemma gather_none ps m : forall acc failed, gather L ps m acc failed = None <-> exists path q, In path ps /\ raw_asked m path None q.
Proof.
  induction ps as [|p ps IH]; intros acc failed; cbn [gather].
  - split; [discriminate|]. intros (path & q & [] & _).
  - change (if relative_parent p then (m_json_rel m, bytes_parent p) else (m_json m, p)) with (asked m p).
    destruct (asked m p) as [[d|] q] eqn:EA.
    + assert (HX : (exists path q, In path ps /\ raw_asked m path None q) <-> exists path q, In path (p :: ps) /\ raw_asked m path None q).
      { split; [intros (path & q' & H1 & H2); exists path, q'; split; [right|]; auto|]. intros (path & q' & [<-|H1] & H2); [|eauto].
        apply raw_asked_iff in H2. congruence. }
      rewrite <- HX. destruct (js_get_opt L d q); apply IH.
    + split; auto. intros _. exists p, q. split; [left; auto|]. apply raw_asked_iff. auto.
Qed.
Lemma gathers_unique ps m rs : gathers ps m rs -> forall rs', gathers ps m rs' -> rs' = rs.
Proof.
  induction 1 as [|p r ps rs (d & q & HA & ->) _ IH]; intros rs' H; inversion H as [|? r' ? rs'' (d' & q' & HA' & ->) HR]; subst; auto.
  apply raw_asked_iff in HA, HA'. assert (d' = d /\ q' = q) as [-> ->] by (rewrite HA in HA'; injection HA'; auto). f_equal. auto.
Qed.
Lemma gathers_defined ps m rs : gathers ps m rs -> forall acc failed, gather L ps m acc failed <> None.
Proof.
  intros H acc failed HN. apply gather_none in HN. destruct HN as (path & q & HI & HA).
  induction H as [|p r ps rs (d & q' & HA' & _) _ IH]; [destruct HI|]. destruct HI as [<-|HI]; auto.
  apply raw_asked_iff in HA, HA'. congruence.
Qed.
Lemma last_head {A} (x y d : A) l : last (x :: y :: l) d = last (y :: l) d.
Proof. reflexivity. Qed.
Theorem gather_iff ps m data f : ps <> [] -> (gather L ps m "" true = Some (data, f) <->
  exists rs, gathers ps m rs /\ data = joined rs /\ (f = true <-> last rs None = None)).
Proof.
  intro HP. assert (G : gather L ps m "" true = Some (data, f) -> exists rs, gathers ps m rs /\ data = joined rs /\ (f = true <-> last rs None = None)).
  { intro H. apply gather_found in H. destruct H as (rs & HG & -> & ->). exists rs. split; auto. split; auto.
    destruct rs as [|r rs]; [inversion HG; subst; congruence|]. rewrite last_head. destruct (last (r :: rs) None); [|tauto]. split; discriminate. }
  split; auto. intros (rs & HG & -> & HF). destruct (gather L ps m "" true) as [[data' f']|] eqn:E; [|exfalso; eapply gathers_defined; eauto].
  apply gather_found in E. destruct E as (rs' & HG' & -> & ->). rewrite (gathers_unique _ _ _ HG _ HG') in *. do 2 f_equal.
  destruct rs as [|r rs]; [inversion HG; subst; congruence|]. rewrite last_head in *. destruct (last (r :: rs) None); destruct f; auto; [|symmetry; apply HF; auto].
  discriminate (proj1 HF eq_refl).
Qed.

(** ** Opening arrays *)
Theorem unnest_iff data r : unnest L data = Some r <-> opened L data r.
Proof.
  unfold unnest. destruct (String.length data <? 2)%nat eqn:EL.
  - apply Nat.ltb_lt in EL. split; [intro H; injection H as <-; apply op_short; auto|]. intro H. inversion H; subst; auto; lia.
  - apply Nat.ltb_ge in EL.
    assert (NS : forall c s, c <> "["%char -> ~ starts "[[" (String c s)) by (intros c s N [x E]; injection E; intros; congruence).
    destruct (ugly L data) as [|c0 rest] eqn:EU.
    + split; [discriminate|]. intro H. exfalso. inversion H as [|H1 H2|? ? ? ? H2|? ? ? ? H2]; subst; try lia; try (rewrite EU in H2; congruence); rewrite EU in H2; discriminate.
    + destruct (Ascii.eqb_spec c0 "[") as [->|N]; cbn [negb].
      2:{ rewrite <- EU. split.
          - intro H. injection H as <-. apply op_flat; auto; rewrite EU; [discriminate|intro E; injection E; intros; congruence|apply NS; auto].
          - intro H. inversion H as [|H1 H2|? ? ? ? H2|? ? ? ? H2]; subst; auto; try lia; rewrite EU in H2; injection H2; intros; congruence. }
      destruct rest as [|c1 rest].
      * split; [discriminate|]. intro H. exfalso. inversion H as [|H1 H2 H3|? ? ? ? H2|? ? ? ? H2]; subst; try lia; try (rewrite EU in H3; congruence); rewrite EU in H2; discriminate.
      * destruct (Ascii.eqb_spec c1 "[") as [->|N]; cbn [negb].
        -- change (String "[" (String "[" rest)) with ("[[" ++ rest) in *. rewrite replace_first_app.
           set (u := replace_first ("[" ++ rest) "]]" "]"). set (d := replace_all u sep ",").
           assert (U : first_swapped "]]" "]" ("[" ++ rest) u) by apply replaces_swapped.
           assert (D : each_swapped sep "," u d) by (apply each_swapped_iff; reflexivity).
           assert (UU : forall u', first_swapped "]]" "]" ("[" ++ rest) u' -> u' = u) by (intros u' HU; apply first_swapped_iff in HU; auto).
           assert (DD : forall d', each_swapped sep "," u d' -> d' = d) by (intros d' HD; apply each_swapped_iff in HD; auto).
           destruct (contains d "[[" || contains d "]]") eqn:EC.
           ++ assert (O : occurs "[[" d \/ occurs "]]" d) by (apply orb_true_iff in EC; destruct EC as [EC|EC]; apply contains_occurs in EC; auto).
              split; [intro H; injection H as <-; eapply op_deep; eauto|]. intro H. inversion H as [|H1 H2 H3 H4|rest' u' d' H1 H2 H3 H4 H5 H6|]; subst; auto; try lia.
              ** exfalso. apply H4. rewrite EU. exists rest. reflexivity.
              ** exfalso. rewrite EU in H2. injection H2 as <-. apply UU in H3. subst u'. apply DD in H4. subst. tauto.
           ++ assert (O1 : ~ occurs "[[" d /\ ~ occurs "]]" d).
              { apply orb_false_iff in EC. destruct EC as [E1 E2]. split; intro H; apply contains_occurs in H; congruence. }
              destruct O1 as [O1 O2]. split; [intro H; injection H as <-; eapply op_nested; eauto|]. intro H. inversion H as [|H1 H2 H3 H4|rest' u' d' H1 H2 H3 H4 H5 H6|rest' u' d' H1 H2 H3 H4 H5]; subst; auto; try lia.
              ** exfalso. apply H4. rewrite EU. exists rest. reflexivity.
              ** rewrite EU in H2. injection H2 as <-. apply UU in H3. subst u'. apply DD in H4. subst. auto.
              ** exfalso. rewrite EU in H2. injection H2 as <-. apply UU in H3. subst u'. apply DD in H4. subst. tauto.
        -- rewrite <- EU. assert (NN : ~ starts "[[" (ugly L data)) by (rewrite EU; intros [x E]; injection E; intros; congruence). split.
           ++ intro H. injection H as <-. apply op_flat; auto; rewrite EU; discriminate.
           ++ intro H. inversion H as [|H1 H2 H3 H4|? ? ? ? H2|? ? ? ? H2]; subst; auto; try lia; exfalso; apply NN; rewrite H2; eexists; reflexivity.
Qed.
Theorem unnest_none data : unnest L data = None <-> (2 <= String.length data)%nat /\ (ugly L data = "" \/ ugly L data = "[").
Proof.
  unfold unnest. destruct (String.length data <? 2)%nat eqn:EL.
  - apply Nat.ltb_lt in EL. split; [discriminate|]. intros [H _]. lia.
  - apply Nat.ltb_ge in EL. destruct (ugly L data) as [|c0 rest]; [tauto|]. destruct (Ascii.eqb_spec c0 "[") as [->|N]; cbn [negb].
    + destruct rest as [|c1 rest]; [tauto|]. split; [|intros [_ [H|H]]; discriminate].
      destruct (negb (Ascii.eqb c1 "[")); [discriminate|]. destruct (_ || _); discriminate.
    + split; [discriminate|]. intros [_ [H|H]]; [discriminate|]. injection H; intros; congruence.
Qed.

(** ** Elements *)
Lemma brace_not_null u : starts "{" u -> json_parse L u <> Some GNil.
Proof.
  intros [r ->] H. apply parse_iff in H. destruct H as (w1 & t & w2 & HW1 & HW2 & HT & E). inversion HT; subst.
  destruct w1 as [|c w1]; [discriminate|]. injection E as <- _. destruct HW1 as [HW1 _]. vm_compute in HW1. intuition discriminate.
Qed.
Lemma all_some_iff {A B} (f : A -> option B) l r : all_some (map f l) = r <->
  (exists ts, r = Some ts /\ Forall2 (fun x t => f x = Some t) l ts) \/ (r = None /\ exists x, In x l /\ f x = None).
Proof.
  revert r. induction l as [|x l IH]; intro r; cbn [map all_some].
  - split; [intros <-; left; exists []; auto|]. intros [(ts & -> & H)|(_ & x & [] & _)]. inversion H; auto.
  - destruct (f x) as [t|] eqn:E.
    + split.
      * intros <-. destruct (all_some (map f l)) as [ts|] eqn:EA; cbn [option_map].
        -- destruct (proj1 (IH (Some ts)) eq_refl) as [(ts' & E' & H)|(E' & _)]; [|discriminate]. injection E' as <-. left. exists (t :: ts). auto.
        -- destruct (proj1 (IH None) eq_refl) as [(ts' & E' & H)|(_ & y & HI & HY)]; [discriminate|]. right. split; auto. exists y. split; [right|]; auto.
      * intros [(ts & -> & H)|(-> & y & HI & HY)].
        -- inversion H as [|? t' ? ts' HX HR]; subst. assert (all_some (map f l) = Some ts') as -> by (apply IH; left; eauto). rewrite E in HX. injection HX as ->. reflexivity.
        -- assert (all_some (map f l) = None) as ->; [|reflexivity]. apply IH. right. split; auto. exists y. destruct HI as [<-|HI]; [congruence|auto].
    + split; [intros <-; right; split; auto; exists x; split; [left|]; auto|]. intros [(ts & -> & H)|(-> & _)]; auto. inversion H; congruence.
Qed.

Theorem elements_iff a m r : a_parents a = split_char "," (a_parent a) -> (selected_bytes L a m r <-> raw_elements L a m r).
Proof.
  intro HA.
  assert (F : forall rs, raw_found L a m rs <-> gathers (a_parents a) m rs).
  { intro rs. rewrite HA. unfold raw_found, gathers. split; [intros (items & HI & HF); apply comma_items_iff in HI; subst; auto|]. intro H. eexists. split; [apply comma_items_iff; reflexivity|auto]. }
  assert (NE : a_parents a <> []) by (rewrite HA; destruct (a_parent a) as [|c s]; [discriminate|]; simpl; destruct (Ascii.eqb c ","); [discriminate|]; destruct (split_char "," s); discriminate).
  unfold selected_bytes. split.
  - intros (data & failed & HG & H). apply gather_iff in HG; auto. destruct HG as (rs & HG & -> & HF). apply F in HG. destruct failed.
    + subst r. eapply rw_missing; eauto. apply HF. auto.
    + destruct (last rs None) as [t|] eqn:EL; [|discriminate (proj2 HF eq_refl)]. clear HF. destruct H as (d & HU & H). apply unnest_iff in HU.
      destruct d as [d|]; [|subst r; eapply rw_deep; eauto]. destruct (split_objects d) as [os|] eqn:ES.
      * subst r. apply split_pieces in ES. destruct ES as [E1 E2]. eapply rw_pieces; eauto.
      * apply split_none in ES. pose proof (brace_not_null _ ES) as NN. unfold json_parse_map in H.
        assert (BR : (forall obj, json_parse L d <> Some (GMapS obj)) -> raw_elements L a m None) by (intro; eapply rw_broken; eauto).
        destruct (json_parse L d) as [[| | | | | |obj|]|] eqn:EP; try congruence; try (subst r; apply BR; discriminate).
        destruct H as (es & HE & ->). destruct (all_some (map (json_marshal L) es)) as [ts|] eqn:EA; apply all_some_iff in EA.
        -- destruct EA as [(ts' & E & HM)|(E & _)]; [|discriminate]. injection E as <-. eapply rw_entries; eauto.
        -- destruct EA as [(ts' & E & HM)|(_ & e & HI & HN)]; [discriminate|]. eapply rw_unprintable; eauto.
  - assert (G : forall rs, raw_found L a m rs -> gather L (a_parents a) m "" true = Some (joined rs, match last rs None with None => true | Some _ => false end)).
    { intros rs HG. apply F in HG. apply gather_iff; auto. exists rs. split; auto. split; auto. destruct (last rs None); split; congruence. }
    intros [rs HG HL|rs t HG HL HO|rs t u os HG HL HO HN HP|rs t u obj es ts HG HL HO HN HP HE HM|rs t u obj es e HG HL HO HN HP HE HI HM|rs t u HG HL HO HN HP];
      apply G in HG; rewrite HL in HG; eexists _, _; split; try exact HG; cbv iota; auto; apply unnest_iff in HO; eexists; (split; [exact HO|]); cbv iota; auto.
    + assert (split_objects u = Some os) as -> by (apply split_pieces; auto). auto.
    + apply split_none in HN. rewrite HN. unfold json_parse_map. rewrite HP. exists es. split; auto. symmetry. apply all_some_iff. left. eauto.
    + apply split_none in HN. rewrite HN. unfold json_parse_map. rewrite HP. exists es. split; auto. symmetry. apply all_some_iff. right. eauto.
    + pose proof (brace_not_null _ HN) as NN. apply split_none in HN. rewrite HN. unfold json_parse_map.
      destruct (json_parse L u) as [[| | | | | |obj|]|] eqn:EP; auto; [congruence|]. exfalso. eapply HP. reflexivity.
Qed.
Theorem elements_panic_iff ord a m t : a_parents a = split_char "," (a_parent a) ->
  (fst (elements_bytes L ord a (mkEst m t)) = None <-> raw_parent_cause L a m).
Proof.
  intro HA.
  assert (F : forall rs, raw_found L a m rs <-> gathers (a_parents a) m rs).
  { intro rs. rewrite HA. unfold raw_found, gathers. split; [intros (items & HI & HF); apply comma_items_iff in HI; subst; auto|]. intro H. eexists. split; [apply comma_items_iff; reflexivity|auto]. }
  assert (NE : a_parents a <> []) by (rewrite HA; destruct (a_parent a) as [|c s]; [discriminate|]; simpl; destruct (Ascii.eqb c ","); [discriminate|]; destruct (split_char "," s); discriminate).
  unfold elements_bytes, mbind, mmsg, mopt. cbn [e_msg]. destruct (gather L (a_parents a) m "" true) as [[data failed]|] eqn:EG.
  - pose proof EG as EG'. apply gather_iff in EG'; auto. destruct EG' as (rs & HG & -> & HF).
    assert (ND : ~ exists items path q, comma_items (a_parent a) items /\ In path items /\ raw_asked m path None q).
    { intros (items & path & q & HI & HP & HQ). apply comma_items_iff in HI. subst items. rewrite <- HA in HP.
      assert (gather L (a_parents a) m "" true = None) by (apply gather_none; eauto). congruence. }
    destruct failed.
    + split; [discriminate|]. intros [items path q H1 H2 H3|rs' t' H1 H2 H3 H4]; exfalso; [apply ND; exists items, path, q; auto|]. apply F in H1. rewrite (gathers_unique _ _ _ HG _ H1) in H2.
      rewrite (proj1 HF eq_refl) in H2. discriminate.
    + destruct (last rs None) as [t'|] eqn:EL; [|discriminate (proj2 HF eq_refl)]. destruct (unnest L (joined rs)) as [d|] eqn:EU.
      * split.
        -- intro H. exfalso. destruct d as [d|]; [|discriminate]. destruct (split_objects d); [discriminate|]. unfold objects_of_map in H.
           destruct (json_parse_map L d); [|discriminate]. unfold mbind, mrange, mret in H. discriminate.
        -- intros [items path q H1 H2 H3|rs' t'' H1 H2 H3 H4]; exfalso; [apply ND; exists items, path, q; auto|]. apply F in H1. rewrite (gathers_unique _ _ _ HG _ H1) in *.
           assert (unnest L (joined rs) = None) by (apply unnest_none; auto). congruence.
      * split; auto. intros _. apply unnest_none in EU. destruct EU as [H1 H2]. eapply rp_compacted; eauto. apply F. auto.
  - split; auto. intros _. apply gather_none in EG. destruct EG as (path & q & HI & HQ). rewrite HA in HI. eapply rp_no_document; eauto. apply comma_items_iff. reflexivity.
Qed.
End WithLib.
