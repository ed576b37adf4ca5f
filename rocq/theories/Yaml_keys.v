(** Keys that occur more than once in a mapping: the last entry counts.  And the two fields of rules that only the engine should set. *)
From Coq Require Import List String Ascii Bool Arith ZArith Lia.
From Verif Require Import Base GoStr GoFloat Types Json StrUtils Prepare Parse Marshal Lifecycle Messages Fields Yaml Spec_Tree Spec_Load Load_proofs Spec_Copy Spec_Grammar Grammar_proofs Grammar_tree Grammar_loads Spec_Fields Spec_Yaml Yaml_proofs Yaml_rules.
Import ListNotations.
Open Scope string_scope.

Section Keys.
Variable k : string.
Definition keyed (e : iface * iface) : bool := key_eqb (fst e) (GStr k).
Lemma keyed_iff e : keyed e = true <-> fst e = GStr k.
Proof.
  unfold keyed. destruct (fst e); cbn; split; intro H; try discriminate H.
  - apply String.eqb_eq in H. subst. reflexivity.
  - injection H as ->. apply String.eqb_refl.
Qed.
Lemma keyed_pair a b : keyed (a, b) = key_eqb a (GStr k).
Proof. reflexivity. Qed.
Lemma key_eqb_str a : key_eqb (GStr k) a = true -> a = GStr k.
Proof. destruct a; cbn; intro H; try discriminate H. apply String.eqb_eq in H. subst. reflexivity. Qed.
Lemma put_filter a b m : filter keyed (put a b m) =
  if key_eqb a (GStr k) then match filter keyed m with [] => [(a, b)] | x :: l => (fst x, b) :: l end else filter keyed m.
Proof.
  destruct (key_eqb a (GStr k)) eqn:EA.
  - assert (E : a = GStr k) by (apply (keyed_iff (a, b)); exact EA). subst a. induction m as [|(k', v') m IH]; cbn [put filter].
    + unfold keyed. cbn [fst]. cbn. rewrite String.eqb_refl. reflexivity.
    + destruct (key_eqb k' (GStr k)) eqn:E.
      * cbn [filter]. rewrite !keyed_pair, E. reflexivity.
      * cbn [filter]. rewrite !keyed_pair, E. exact IH.
  - induction m as [|(k', v') m IH]; cbn [put filter].
    + unfold keyed. cbn [fst]. rewrite EA. reflexivity.
    + destruct (key_eqb k' a) eqn:E; cbn [filter]; rewrite !keyed_pair; [|rewrite IH; reflexivity].
      destruct (key_eqb k' (GStr k)) eqn:E'; [|reflexivity]. apply (keyed_iff (k', v')) in E'. cbn in E'. subst k'. apply key_eqb_str in E. subst a. cbn in EA. rewrite String.eqb_refl in EA. discriminate EA.
Qed.
Definition final (l : list (iface * iface)) : list (iface * iface) := match rev (filter keyed l) with [] => [] | x :: _ => [x] end.
Lemma puts_filter es : filter keyed (fold_left (fun acc e => put (fst e) (snd e) acc) es []) = final es.
Proof.
  induction es as [|(a, b) es IH] using rev_ind; [reflexivity|]. rewrite fold_left_app. cbn [fold_left fst snd]. rewrite put_filter, IH. unfold final. rewrite filter_app, rev_app_distr. cbn [filter]. rewrite keyed_pair.
  destruct (key_eqb a (GStr k)) eqn:EA; [|reflexivity]. assert (E : a = GStr k) by (apply (keyed_iff (a, b)); exact EA). subst a. cbn [rev app].
  destruct (rev (filter keyed es)) as [|x l] eqn:E; [reflexivity|].
  assert (HX : In x (filter keyed es)) by (apply in_rev; rewrite E; left; reflexivity). apply filter_In in HX. destruct HX as [_ HX]. apply keyed_iff in HX. rewrite HX. reflexivity.
Qed.
Lemma final_iff es v : In (GStr k, v) (fold_left (fun acc e => put (fst e) (snd e) acc) es []) <->
  exists l1 l2, es = (l1 ++ (GStr k, v) :: l2)%list /\ forall v', ~ In (GStr k, v') l2.
Proof.
  assert (HK : In (GStr k, v) (fold_left (fun acc e => put (fst e) (snd e) acc) es []) <-> In (GStr k, v) (final es)).
  { rewrite <- puts_filter, filter_In. split; [|tauto]. intro H. split; auto. apply keyed_iff. reflexivity. }
  rewrite HK. clear HK. induction es as [|(a, b) es IH] using rev_ind; unfold final in *.
  - cbn. split; [intros []|]. intros (l1 & l2 & E & _). destruct l1; discriminate E.
  - rewrite filter_app, rev_app_distr. cbn [filter]. destruct (keyed (a, b)) eqn:EK; cbn [rev app].
    + assert (E : a = GStr k) by (apply keyed_iff in EK; exact EK). subst a. split.
      * intros [H|[]]. injection H as ->. exists es, []. split; [reflexivity|intros v' []].
      * intros (l1 & l2 & E & HN). destruct l2 as [|e l2 _] using rev_ind.
        -- apply app_inj_tail in E. destruct E as [_ E]. injection E as ->. left. reflexivity.
        -- rewrite app_comm_cons, app_assoc in E. apply app_inj_tail in E. destruct E as [_ <-]. exfalso. apply (HN b), in_or_app. right. left. reflexivity.
    + rewrite IH. split; intros (l1 & l2 & E & HN).
      * exists l1, (l2 ++ [(a, b)])%list. split; [rewrite E, <- app_assoc; reflexivity|]. intros v' HI. apply in_app_or in HI. destruct HI as [HI|[HI|[]]]; [exact (HN _ HI)|]. injection HI as -> ->.
        assert (EK' : keyed (GStr k, v') = true) by (apply keyed_iff; reflexivity). congruence.
      * destruct l2 as [|e l2 _] using rev_ind.
        -- apply app_inj_tail in E. destruct E as [_ E]. injection E as -> ->. assert (EK' : keyed (GStr k, v) = true) by (apply keyed_iff; reflexivity). congruence.
        -- rewrite app_comm_cons, app_assoc in E. apply app_inj_tail in E. destruct E as [-> <-]. exists l1, l2. split; [reflexivity|]. intros v' HI. apply (HN v'), in_or_app. auto.
Qed.
End Keys.

(** the entry of a mapping that counts for a key: no later one has the same key *)
Definition last_entry (m : list (yaml * yaml)) (k : string) (y : yaml) : Prop :=
  exists m1 t m2, m = (m1 ++ (YScalar t (GStr k), y) :: m2)%list /\ forall t' y', ~ In (YScalar t' (GStr k), y') m2.
Lemma map_decoded m es : all_some (map (fun e => match decode_any (fst e), decode_any (snd e) with
                                  | Some k, Some v => if is_collection k then None else Some (k, v)
                                  | _, _ => None
                                  end) m) = Some es ->
  Forall2 (fun e f => decode_any (fst e) = Some (fst f) /\ decode_any (snd e) = Some (snd f) /\ is_collection (fst f) = false) m es.
Proof.
  revert es. induction m as [|(a, b) m IH]; cbn [map all_some fst snd]; intros es H; [injection H as <-; constructor|].
  destruct (decode_any a) as [ka|] eqn:EA; [|discriminate H]. destruct (decode_any b) as [vb|] eqn:EB; [|discriminate H]. destruct (is_collection ka) eqn:EC; [discriminate H|].
  destruct (all_some _) as [es'|]; [|discriminate H]. injection H as <-. constructor; auto.
Qed.
Lemma decode_str y k : decode_any y = Some (GStr k) <-> exists t, y = YScalar t (GStr k).
Proof.
  split; [|intros [t ->]; reflexivity]. destruct y as [t v|l|m]; cbn [decode_any]; intro H.
  - injection H as ->. eauto.
  - destruct (all_some _); discriminate H.
  - destruct (all_some _); discriminate H.
Qed.
Theorem last_counts m es k v : decode_any (YMap m) = Some (GMapI es) -> In (GStr k, v) es <-> exists y, last_entry m k y /\ decode_any y = Some v.
Proof.
  cbn [decode_any]. destruct (all_some _) as [l|] eqn:E; [|discriminate]. intro H. injection H as <-. apply map_decoded in E. rewrite final_iff. split.
  - intros (l1 & l2 & -> & HN). apply Forall2_app_inv_r in E. destruct E as (m1 & m2' & F1 & F2 & ->). inversion F2 as [|(ky, y) f m2 ? (H1 & H2 & _) F3]; subst. cbn [fst snd] in *.
    apply decode_str in H1. destruct H1 as [t ->]. exists y. split; auto. exists m1, t, m2. split; auto. intros t' y' HI.
    destruct (in_split _ _ HI) as (n1 & n2 & ->). apply Forall2_app_inv_l in F3. destruct F3 as (p1 & p2' & _ & F4 & ->). inversion F4 as [|? g ? p2 (G1 & G2 & _) _]; subst. cbn [fst snd] in *.
    cbn in G1. injection G1 as G1. destruct g as [gk gv]. cbn in G1. subst gk. apply (HN gv), in_or_app. right. left. reflexivity.
  - intros (y & (m1 & t & m2 & -> & HN) & HV). apply Forall2_app_inv_l in E. destruct E as (l1 & l2' & F1 & F2 & ->). inversion F2 as [|? f ? l2 (H1 & H2 & _) F3]; subst. cbn [fst snd] in *.
    destruct f as [fk fv]. cbn in H1, H2. injection H1 as <-. rewrite HV in H2. injection H2 as <-. exists l1, l2. split; auto. intros v' HI.
    destruct (in_split _ _ HI) as (n1 & n2 & ->). apply Forall2_app_inv_r in F3. destruct F3 as (p1 & p2' & _ & F4 & ->). inversion F4 as [|(gk, gy) ? p2 ? (G1 & G2 & _) _]; subst. cbn [fst snd] in *.
    apply decode_str in G1. destruct G1 as [t' ->]. apply (HN t' gy), in_or_app. right. left. reflexivity.
Qed.

(** ** What a document says about the fields the engine computes: the expression of the operation, and whether the fields are converted *)
Section Engine.
Variable L : Lib.
Variable ord : order.
Variable re_text : option (string -> option (RE L)).
(** an expression is given by a text that (Regexp).UnmarshalText accepts, if there is this method; a mapping is an empty one *)
Inductive expression : yaml -> option (RE L) -> Prop :=
| ex_null y : null y -> expression y None
| ex_map m : expression (YMap m) None
| ex_text y t f x : text y t -> ~ null y -> re_text = Some f -> f t = Some x -> expression y (Some x).
Inductive flag : yaml -> bool -> Prop :=
| fl_null y : null y -> flag y false
| fl_bool t b : flag (YScalar t (GBool b)) b.
Definition engine_fields (m : list (yaml * yaml)) (r : rule L) : Prop :=
  opt m "operationRegex" None expression (ru_operation_regex r) /\ opt m "-" false flag (ru_converted r).

Lemma regex_expression y t x t' : decode_regex L re_text y None t = (Ok (x, false), t') -> expression y x.
Proof.
  unfold decode_regex. destruct y as [s v|l|m]; intro H.
  - destruct (has_value v) eqn:EV.
    + destruct (null_text s v); [apply pret_ok in H; destruct H; discriminate|]. destruct re_text as [f|] eqn:ER; [|apply pret_ok in H; destruct H; discriminate].
      destruct (f s) as [r|] eqn:EF; apply pret_ok in H; destruct H as [H _]; [|discriminate H]. injection H as <-.
      assert (NV : v <> GNil) by (intros ->; discriminate EV). apply (ex_text _ s f); auto; [constructor; exact NV|]. intros (s' & E). injection E as -> ->. congruence.
    + apply pret_ok in H. destruct H as [H _]. injection H as <-. destruct v; try discriminate EV. apply ex_null. exists s. reflexivity.
  - apply pret_ok in H. destruct H as [H _]. discriminate H.
  - apply pbind_ok in H. destruct H as ([u b] & t1 & _ & H). apply pret_ok in H. destruct H as [H _]. injection H as <- _. apply ex_map.
Qed.
Lemma bool_flag y t x t' : lift decode_bool y false t = (Ok (x, false), t') -> flag y x.
Proof.
  intro H. apply lift_ok in H. destruct H as [H _]. destruct y as [s v|l|m]; cbn in H; try discriminate H.
  destruct v; try discriminate H; injection H as <-; [apply fl_null; exists s; reflexivity|constructor].
Qed.
Lemma rule_engine m t r t' : clean (YMap m) -> decode_struct (by_name (rule_fields L ord re_text)) m (empty_rule L) t = (Ok (r, false), t') -> engine_fields m r.
Proof.
  intros HC H. pose proof (clean_distinct m HC) as HD. split.
  - field_of H HD (@ru_operation_regex L) "operationRegex". eapply (opt_map (fun x => x)) in HO; [exact HO|]. cbn. intros y b _ (t1 & t2 & E). exact (regex_expression y t1 b t2 E).
  - field_of H HD (@ru_converted L) "-". eapply (opt_map (fun x => x)) in HO; [exact HO|]. cbn. intros y b _ (t1 & t2 & E). exact (bool_flag y t1 b t2 E).
Qed.
Lemma rules_list_engine l : forall t rs t', Forall clean l -> decode_structs (decode_rule L ord re_text) l t = (Ok (rs, false), t') ->
  Forall2 (fun y r => forall m, y = YMap m -> engine_fields m r) l rs.
Proof.
  induction l as [|y l IH]; intros t rs t' HC H.
  - cbn in H. apply pret_ok in H. destruct H as [H _]. injection H as <-. constructor.
  - apply structs_cons in H. destruct H as (r & rs' & t1 & -> & H1 & H2). inversion HC; subst. constructor; [|eapply IH; eauto].
    intros m ->. exact (rule_engine m t r t1 H3 H1).
Qed.
Theorem rules_engine m l t rs t' : clean (YMap m) -> at_key m "rules" (YSeq l) -> read_rules L ord re_text (YMap m) t = (Ok rs, t') ->
  Forall2 (fun y r => forall m', y = YMap m' -> engine_fields m' r) l rs.
Proof.
  intros HC HK H. unfold read_rules, finish in H. apply pbind_ok in H. destruct H as ([rs1 b] & t1 & H1 & H2). destruct b; apply pret_ok in H2; destruct H2 as [H2 _]; [discriminate H2|]. injection H2 as <-.
  unfold decode_rules, decode_into in H1.
  pose proof (struct_field (by_name [("rules", decode_list (decode_rule L ord re_text))]) (fun x : list (rule L) => x) "rules" (decode_list (decode_rule L ord re_text)) m eq_refl) as HS.
  specialize (HS ltac:(intros k' f' NE HF; apply by_name_in in HF; destruct HF as [E|[]]; injection E as <- <-; congruence) _ _ _ _ (clean_distinct m HC) H1).
  pose proof (opt_at _ _ _ _ _ _ (clean_distinct m HC) HS HK) as (a1 & t2 & a2 & t3 & -> & E & ->). cbn in E. eapply rules_list_engine; [|exact E]. apply in_clean. exact (at_key_clean _ _ _ HC HK).
Qed.
End Engine.
