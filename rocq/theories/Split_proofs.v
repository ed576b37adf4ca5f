(** Proofs about the byte-level splitter. *)
From Coq Require Import List String Ascii Bool Arith ZArith Lia.
From Verif Require Import Base GoStr GoStr_facts GoFloat Types Json StrUtils Validate Prepare Parse Marshal Eval
  Spec_Glob Glob_proofs Spec_Json Json_proofs Spec_Split.
Import ListNotations.
Open Scope string_scope.

Lemma braceless_app a b : braceless (a ++ b) <-> braceless a /\ braceless b.
Proof. apply all_chars_app. Qed.

(** balanced braces *)
Inductive balanced : string -> Prop :=
| bl_end : balanced ""
| bl_char c s : ~ brace c -> balanced s -> balanced (String c s)
| bl_nest a s : balanced a -> balanced s -> balanced (String "{" (a ++ String "}" s)).
Lemma balanced_app a b : balanced a -> balanced b -> balanced (a ++ b).
Proof.
  induction 1; intro HB; simpl.
  - auto.
  - apply bl_char; auto.
  - rewrite append_assoc. simpl. apply bl_nest; auto.
Qed.
Lemma braceless_balanced a : braceless a -> balanced a.
Proof. induction a; [constructor|]. intros [H1 H2]. constructor; auto. Qed.

(** ** Scanning *)
Lemma drop_app a b : drop (String.length a) (a ++ b) = b.
Proof. induction a; simpl; auto. Qed.
Lemma take_app a b : take (String.length a) (a ++ b) = a.
Proof. induction a; simpl; [destruct b; auto|f_equal; auto]. Qed.

Notation scan := split_objects_from.
Lemma scan_braceless d w : forall r i, braceless w -> scan d (w ++ r) i 0 None = scan d r (i + String.length w) 0 None.
Proof.
  induction w as [|c w IH]; intros r i H; simpl; [f_equal; lia|]. destruct H as [H1 H2].
  destruct (Ascii.eqb_spec c "{"); [exfalso; apply H1; left; auto|]. destruct (Ascii.eqb_spec c "}"); [exfalso; apply H1; right; auto|].
  simpl. rewrite IH by auto. f_equal. lia.
Qed.
Lemma scan_balanced d st b : balanced b -> forall r i c, (0 < c)%Z -> scan d (b ++ r) i c (Some st) = scan d r (i + String.length b) c (Some st).
Proof.
  induction 1 as [|ch s HB _ IH|a s _ IHa _ IHs]; intros r i c HC.
  - simpl. f_equal. lia.
  - simpl. destruct (Ascii.eqb_spec ch "{"); [exfalso; apply HB; left; auto|]. destruct (Ascii.eqb_spec ch "}"); [exfalso; apply HB; right; auto|].
    destruct (Z.eqb_spec c 0); [lia|]. rewrite IH by auto. f_equal. lia.
  - cbn [append]. cbn [split_objects_from]. change (Ascii.eqb "{" "{") with true. change (Ascii.eqb "{" "}") with false. cbv iota zeta.
    destruct (Z.eqb_spec c 0); [lia|]. destruct (Z.eqb_spec (c + 1) 0); [lia|]. rewrite append_assoc. rewrite IHa by lia.
    cbn [append]. cbn [split_objects_from]. change (Ascii.eqb "}" "{") with false. change (Ascii.eqb "}" "}") with true. cbv iota zeta.
    replace (c + 1 - 1)%Z with c by lia. destruct (Z.eqb_spec c 0); [lia|]. rewrite IHs by auto. f_equal.
    cbn [String.length]. rewrite length_append. cbn [String.length]. lia.
Qed.
Lemma scan_object pre b r : balanced b ->
  scan (pre ++ String "{" (b ++ String "}" r)) (String "{" (b ++ String "}" r)) (String.length pre) 0 None =
  String "{" (b ++ "}") :: scan (pre ++ String "{" (b ++ String "}" r)) r (String.length (pre ++ String "{" (b ++ "}"))) 0 None.
Proof.
  intro HB. set (d := pre ++ String "{" (b ++ String "}" r)). cbn [split_objects_from].
  change (Ascii.eqb "{" "{") with true. change (Ascii.eqb "{" "}") with false. cbv iota zeta.
  change ((0 =? 0)%Z) with true. cbv iota. change ((0 + 1 =? 0)%Z) with false. cbv iota. rewrite scan_balanced by (auto; lia).
  cbn [split_objects_from]. change (Ascii.eqb "}" "{") with false. change (Ascii.eqb "}" "}") with true. cbv iota zeta.
  change ((0 + 1 - 1 =? 0)%Z) with true. change (0 + 1 - 1)%Z with 0%Z. cbv iota. f_equal.
  - assert (E : d = pre ++ (String "{" (b ++ "}")) ++ r) by (unfold d; simpl; rewrite append_assoc; auto).
    rewrite E, drop_app. transitivity (take (String.length (String "{" (b ++ "}"))) (String "{" (b ++ "}") ++ r)); [|apply take_app].
    f_equal. cbn [String.length]. rewrite length_append. cbn [String.length]. lia.
  - f_equal. rewrite length_append. simpl. rewrite length_append. simpl. lia.
Qed.

(** ** Reading string literals *)
Lemma literal_unique a : literal a -> forall b x y, literal b -> a ++ String dq x = b ++ String dq y -> a = b /\ x = y.
Proof.
  induction 1 as [|c a H1 H2 _ IH|c a _ IH]; intros b x y HB E.
  - destruct HB; simpl in E; injection E; intros; subst; auto; try congruence.
  - destruct HB as [|d b ? ? HB|d b HB]; simpl in E.
    + injection E; intros; subst. congruence.
    + injection E as -> E. destruct (IH _ _ _ HB E) as [-> ->]. auto.
    + injection E as -> E. congruence.
  - destruct HB as [|d b ? ? HB|d b HB]; simpl in E.
    + injection E; intros; subst. vm_compute in H0. discriminate.
    + injection E as <- E. congruence.
    + injection E as -> E. destruct (IH _ _ _ HB E) as [-> ->]. auto.
Qed.
Lemma unit_literal n t s : unit_text n t -> literal s -> literal (t ++ s).
Proof.
  intros (h1 & h2 & h3 & h4 & a & b & c & d & H1 & H2 & H3 & H4 & _ & ->) HS.
  assert (HH : forall h n, hex h n -> h <> dq /\ h <> bslash).
  { clear. intros h n H. split; intros ->; apply hex_iff in H; vm_compute in H; discriminate. }
  apply lt_escape. repeat (apply lt_char; [eapply HH; eauto|eapply HH; eauto|]). exact HS.
Qed.
Lemma chars_literal x s : chars x s -> literal s.
Proof. induction 1; try (constructor; auto; fail); repeat (eapply unit_literal; [eassumption|]); auto. Qed.
Lemma strings_plain t : all_chars (fun c => c <> dq) t -> forall r, braceless_strings (t ++ r) -> braceless_strings r.
Proof.
  induction t as [|c t IH]; intros H r HB; auto. destruct H as [H1 H2]. simpl in HB. inversion HB; subst; [apply IH; auto|congruence].
Qed.
Lemma strings_literal x s r : chars x s -> braceless_strings (String dq (s ++ String dq r)) -> braceless s /\ braceless_strings r.
Proof.
  intros HC HB. apply chars_literal in HC. inversion HB as [|? ? N|y s' HL HN HS E]; subst; [congruence|].
  destruct (literal_unique _ HL _ _ _ HC E) as [-> ->]. auto.
Qed.

Lemma spaces_plain w : spaces w -> all_chars (fun c => c <> dq) w /\ braceless w.
Proof.
  intro H. split; eapply all_chars_impl; try exact H; intros c HC.
  - intros ->. vm_compute in HC. intuition discriminate.
  - intros [->| ->]; vm_compute in HC; intuition discriminate.
Qed.
Lemma number_plain s : number_text s -> all_chars (fun c => c <> dq /\ ~ brace c) s.
Proof.
  intros (sg & i & f & e & HS & [[_ HI] _] & HF & HE & ->).
  assert (HD : forall d, all_chars digit_char d -> all_chars (fun c => c <> dq /\ ~ brace c) d).
  { intros d H. eapply all_chars_impl; [|exact H]. intros c HC. split; [intros ->|intros [->| ->]]; unfold digit_char in HC; vm_compute in HC; lia. }
  assert (HC : forall c, ~ brace c -> c <> dq -> all_chars (fun c => c <> dq /\ ~ brace c) (String c "")) by (intros; repeat split; auto).
  assert (N : forall c, In c ["-"; "."; "e"; "E"; "+"]%char -> all_chars (fun c => c <> dq /\ ~ brace c) (String c "")).
  { intros c Hc. apply HC; [intros [->| ->]|intros ->]; vm_compute in Hc; intuition discriminate. }
  apply all_chars_app. split; [destruct HS as [<-|[<-|[]]]; [exact I|apply N; simpl; auto]|].
  apply all_chars_app. split; auto. apply all_chars_app. split.
  - destruct HF as [->|(d & [_ Hd] & ->)]; [exact I|]. apply all_chars_app. split; auto. apply N. simpl. auto.
  - destruct HE as [->|(a & b & d & Ha & Hb & [_ Hd] & ->)]; [exact I|]. apply all_chars_app. split.
    + destruct Ha as [<-|[<-|[]]]; apply N; simpl; auto.
    + apply all_chars_app. split; auto. destruct Hb as [<-|[<-|[<-|[]]]]; [exact I| |]; apply N; simpl; auto 6.
Qed.

Section WithLib.
Variable L : Lib.

(** ** Texts are balanced *)
Lemma skip_plain t r : all_chars (fun c => c <> dq /\ ~ brace c) t -> braceless_strings (t ++ r) -> balanced t /\ braceless_strings r.
Proof.
  intros H HB. split.
  - apply braceless_balanced. eapply all_chars_impl; [|exact H]. cbv beta; intros c [A B]; auto.
  - eapply strings_plain; [|exact HB]. eapply all_chars_impl; [|exact H]. cbv beta; intros c [A B]; auto.
Qed.
Lemma skip_spaces w r : spaces w -> braceless_strings (w ++ r) -> balanced w /\ braceless_strings r.
Proof.
  intros H HB. destruct (spaces_plain _ H). split; [apply braceless_balanced; auto|]. eapply strings_plain; eauto.
Qed.
Lemma skip_char c r : c <> dq -> braceless_strings (String c r) -> braceless_strings r.
Proof. intros HC H. inversion H; subst; auto. congruence. Qed.

Ltac quiet := repeat split; intro; vm_compute in *; try discriminate; intuition discriminate.

Lemma texts_balanced :
  (forall v s, text L v s -> forall r, braceless_strings (s ++ r) -> balanced s /\ braceless_strings r) /\
  (forall vs s, elements L vs s -> forall r, braceless_strings (s ++ r) -> balanced s /\ braceless_strings r) /\
  (forall kvs s, members L kvs s -> forall r, braceless_strings (s ++ r) -> balanced s /\ braceless_strings r).
Proof.
  apply (json_mind L (fun v s _ => forall r, braceless_strings (s ++ r) -> balanced s /\ braceless_strings r)
     (fun v s _ => forall r, braceless_strings (s ++ r) -> balanced s /\ braceless_strings r)
     (fun v s _ => forall r, braceless_strings (s ++ r) -> balanced s /\ braceless_strings r)).
  - intros r H. apply skip_plain; auto. quiet.
  - intros r H. apply skip_plain; auto. quiet.
  - intros r H. apply skip_plain; auto. quiet.
  - intros x s HC r H. unfold dqs in *. cbn [append] in *. rewrite append_assoc in H. cbn [append] in H.
    destruct (strings_literal _ _ _ HC H) as [H1 H2]. split; auto. apply braceless_balanced. split; [quiet|].
    apply braceless_app. split; auto. quiet.
  - intros s f HN _ r H. apply skip_plain; auto. apply number_plain; auto.
  - intros w HW r H. cbn [append] in *. apply skip_char in H; [|discriminate]. rewrite append_assoc in H.
    destruct (skip_spaces _ _ HW H) as [H1 H2]. cbn [append] in H2. apply skip_char in H2; [|discriminate]. split; auto.
    constructor; [quiet|]. apply balanced_app; auto. apply braceless_balanced. quiet.
  - intros vs s HE IH r H. cbn [append] in *. apply skip_char in H; [|discriminate]. rewrite append_assoc in H.
    destruct (IH _ H) as [H1 H2]. cbn [append] in H2. apply skip_char in H2; [|discriminate]. split; auto.
    constructor; [quiet|]. apply balanced_app; auto. apply braceless_balanced. quiet.
  - intros w HW r H. cbn [append] in *. apply skip_char in H; [|discriminate]. rewrite append_assoc in H.
    destruct (skip_spaces _ _ HW H) as [H1 H2]. cbn [append] in H2. apply skip_char in H2; [|discriminate]. split; auto.
    apply bl_nest; auto. constructor.
  - intros vs s HE IH r H. cbn [append] in *. apply skip_char in H; [|discriminate]. rewrite append_assoc in H.
    destruct (IH _ H) as [H1 H2]. cbn [append] in H2. apply skip_char in H2; [|discriminate]. split; auto.
    apply bl_nest; auto. constructor.
  - intros v s w1 w2 H1 H2 HT IH r H. rewrite !append_assoc in H. destruct (skip_spaces _ _ H1 H) as [B1 R1].
    destruct (IH _ R1) as [B2 R2]. destruct (skip_spaces _ _ H2 R2) as [B3 R3]. split; auto.
    repeat apply balanced_app; auto.
  - intros v s w1 w2 vs s' H1 H2 HT IH HE IHE r H. rewrite !append_assoc in H. destruct (skip_spaces _ _ H1 H) as [B1 R1].
    destruct (IH _ R1) as [B2 R2]. destruct (skip_spaces _ _ H2 R2) as [B3 R3]. cbn [append] in R3. apply skip_char in R3; [|discriminate].
    destruct (IHE _ R3) as [B4 R4]. split; auto. repeat apply balanced_app; auto. apply braceless_balanced. quiet.
  - intros k ks v s w1 w2 w3 w4 H1 H2 H3 H4 HC HT IH r H.
    rewrite !append_assoc in H. destruct (skip_spaces _ _ H1 H) as [B1 R1]. unfold dqs in *. cbn [append] in R1.
    destruct (strings_literal _ _ _ HC R1) as [B2 R2]. destruct (skip_spaces _ _ H2 R2) as [B3 R3]. cbn [append] in R3. apply skip_char in R3; [|discriminate].
    destruct (skip_spaces _ _ H3 R3) as [B4 R4]. destruct (IH _ R4) as [B5 R5]. destruct (skip_spaces _ _ H4 R5) as [B6 R6]. split; auto.
    apply braceless_balanced in B2. repeat apply balanced_app; auto; apply braceless_balanced; quiet.
  - intros k ks v s w1 w2 w3 w4 kvs s' H1 H2 H3 H4 HC HT IH HM IHM r H.
    rewrite !append_assoc in H. destruct (skip_spaces _ _ H1 H) as [B1 R1]. unfold dqs in *. cbn [append] in R1.
    destruct (strings_literal _ _ _ HC R1) as [B2 R2]. destruct (skip_spaces _ _ H2 R2) as [B3 R3]. cbn [append] in R3. apply skip_char in R3; [|discriminate].
    destruct (skip_spaces _ _ H3 R3) as [B4 R4]. destruct (IH _ R4) as [B5 R5]. destruct (skip_spaces _ _ H4 R5) as [B6 R6].
    cbn [append] in R6. apply skip_char in R6; [|discriminate]. destruct (IHM _ R6) as [B7 R7]. split; auto.
    apply braceless_balanced in B2. repeat apply balanced_app; auto; apply braceless_balanced; quiet.
Qed.

(** ** The splitter *)
Scheme objects_mind := Induction for objects_in Sort Prop
with objects_elements_mind := Induction for objects_in_elements Sort Prop.
Combined Scheme objects_in_mind from objects_mind, objects_elements_mind.

Definition lists (t : string) (os : list string) : Prop := forall r, braceless_strings (t ++ r) -> braceless_strings r /\
  forall pre, scan (pre ++ t ++ r) (t ++ r) (String.length pre) 0 None = (os ++ scan (pre ++ t ++ r) r (String.length (pre ++ t)) 0 None)%list.

Lemma lists_plain t : braceless t -> (forall r, braceless_strings (t ++ r) -> braceless_strings r) -> lists t [].
Proof. intros H1 H2 r HB. split; auto. intro pre. rewrite scan_braceless by auto. rewrite length_append. auto. Qed.
Lemma lists_app a b os os' : lists a os -> lists b os' -> lists (a ++ b) (os ++ os').
Proof.
  intros HA HB r H. rewrite append_assoc in H. destruct (HA _ H) as [H1 EA]. destruct (HB _ H1) as [H2 EB]. split; auto.
  intro pre. rewrite append_assoc. rewrite EA. rewrite <- (append_assoc pre a (b ++ r)), EB. rewrite <- !append_assoc, <- app_assoc. auto.
Qed.
Lemma lists_spaces w : spaces w -> lists w [].
Proof. intro H. apply lists_plain; [apply spaces_plain; auto|]. intros r. apply skip_spaces. auto. Qed.
Lemma lists_char c : c <> dq -> ~ brace c -> lists (String c "") [].
Proof. intros H1 H2. apply lists_plain; [split; simpl; auto|]. intros r. apply skip_char. auto. Qed.
Lemma lists_object m t : text L (GMapS m) t -> lists t [t].
Proof.
  intros HT r H. destruct (proj1 texts_balanced _ _ HT r H) as [_ HR]. split; auto.
  assert (HB : exists b, balanced b /\ t = String "{" (b ++ "}")).
  { inversion HT as [| | | | | | |w HW|kvs s HM]; subst.
    - exists w. split; auto. apply braceless_balanced, spaces_plain. auto.
    - exists s. split; auto. cbn [append] in H. apply skip_char in H; [|discriminate]. rewrite append_assoc in H.
      apply (proj2 (proj2 texts_balanced) _ _ HM _ H). }
  destruct HB as (b & HB & ->). intro pre. cbn [append]. rewrite append_assoc. cbn [append]. rewrite scan_object by auto. reflexivity.
Qed.

Lemma objects_listed : (forall t os, objects_in L t os -> lists t os) /\ (forall s os, objects_in_elements L s os -> lists s os).
Proof.
  apply (objects_in_mind L (fun t os _ => lists t os) (fun s os _ => lists s os)).
  - intros m t HT. eapply lists_object; eauto.
  - intros v t HT HM HA r H. destruct (proj1 texts_balanced _ _ HT r H) as [_ HR]. split; auto. intro pre.
    rewrite scan_braceless; [rewrite length_append; reflexivity|].
    inversion HT as [| | |x s HC|s f HN HF|w HW|vs s HE|w HW|kvs s HK]; subst; try (quiet; fail); try (exfalso; eapply HA; reflexivity); try (exfalso; eapply HM; reflexivity).
    + unfold dqs in *. cbn [append] in *. rewrite append_assoc in H. cbn [append] in H. destruct (strings_literal _ _ _ HC H) as [H1 _].
      split; [quiet|]. apply braceless_app. split; auto. quiet.
    + eapply all_chars_impl; [|exact (number_plain _ HN)]. cbv beta. tauto.
  - intros w HW. change (@nil string) with ((@nil string) ++ (@nil string) ++ (@nil string))%list. apply lists_app; [apply lists_char; quiet|].
    apply lists_app; [apply lists_spaces; auto|apply lists_char; quiet].
  - intros s os _ IH. rewrite <- (app_nil_r os). change (os ++ [])%list with ([] ++ os ++ [])%list.
    apply lists_app; [apply lists_char; quiet|]. apply lists_app; [auto|apply lists_char; quiet].
  - intros t w1 w2 os H1 H2 _ IH. rewrite <- (app_nil_r os). change (os ++ [])%list with ([] ++ os ++ [])%list.
    apply lists_app; [apply lists_spaces; auto|]. apply lists_app; [auto|apply lists_spaces; auto].
  - intros t w1 w2 os s os' H1 H2 _ IH _ IHE. change (os ++ os')%list with ([] ++ os ++ [] ++ [] ++ os')%list.
    apply lists_app; [apply lists_spaces; auto|]. apply lists_app; [auto|]. apply lists_app; [apply lists_spaces; auto|].
    apply lists_app; [apply lists_char; quiet|auto].
Qed.

Lemma split_lists t os : lists t os -> braceless_strings t -> (forall s, t <> String "{" s) -> split_objects t = Some os.
Proof.
  intros HL HB HN. unfold split_objects. destruct t as [|c s] eqn:E.
  - assert (HB' : braceless_strings ("" ++ "")) by auto. destruct (HL "" HB') as [_ HS]. specialize (HS ""). simpl in HS. rewrite app_nil_r in HS. congruence.
  - destruct (Ascii.eqb_spec c "{") as [->|N]; [exfalso; eapply HN; reflexivity|]. f_equal. rewrite <- E in *.
    assert (HB' : braceless_strings (t ++ "")) by (rewrite append_nil_r; auto).
    destruct (HL _ HB') as [_ HS]. specialize (HS ""). cbn [append] in HS. rewrite append_nil_r in HS.
    cbn [String.length] in HS. rewrite HS. simpl. apply app_nil_r.
Qed.
Theorem split_text v w1 t w2 os : spaces w1 -> spaces w2 -> text L v t -> (forall m, v <> GMapS m) -> objects_in L t os ->
  braceless_strings (w1 ++ t ++ w2) -> split_objects (w1 ++ t ++ w2) = Some os.
Proof.
  intros H1 H2 HT HM HO HB. apply split_lists; auto.
  - rewrite <- (app_nil_r os). change (os ++ [])%list with ([] ++ os ++ [])%list.
    apply lists_app; [apply lists_spaces; auto|]. apply lists_app; [apply (proj1 objects_listed); auto|apply lists_spaces; auto].
  - intros s E. destruct w1 as [|c w1].
    + cbn [append] in E. inversion HT; subst; try (eapply HM; reflexivity); try discriminate.
      match goal with H : number_text _ |- _ => destruct (number_start _ H) as (c & r & E2 & HC) end. rewrite E2 in E. injection E as -> _.
      unfold digit_char in HC. destruct HC as [HC|HC]; [discriminate|vm_compute in HC; lia].
    + injection E as -> _. destruct H1 as [H1 _]. vm_compute in H1. intuition discriminate.
Qed.
Theorem split_object m t : text L (GMapS m) t -> split_objects t = None.
Proof. intro HT. inversion HT; subst; reflexivity. Qed.

(** every text that is not an object lists its objects *)
Lemma objects_exist : (forall v t, text L v t -> exists os, objects_in L t os) /\ (forall vs s, elements L vs s -> exists os, objects_in_elements L s os) /\
  (forall kvs s, members L kvs s -> True).
Proof.
  apply (json_mind L (fun v t _ => exists os, objects_in L t os) (fun vs s _ => exists os, objects_in_elements L s os) (fun _ _ _ => True)); auto;
    try (intros; eexists; eapply oi_scalar; [econstructor; eauto|discriminate|discriminate]; fail).
  - intros w HW. eexists. apply oi_empty. auto.
  - intros vs s _ [os H]. eexists. apply oi_array. eauto.
  - intros w HW. eexists. apply (oi_object L []). constructor. auto.
  - intros kvs s HM _. eexists. eapply oi_object. unfold object in *. exact (tx_object L kvs s HM).
  - intros v s w1 w2 H1 H2 _ [os H]. eexists. apply oe_one; eauto.
  - intros v s w1 w2 vs s' H1 H2 _ [os H] _ [os' H']. eexists. apply oe_cons; eauto.
Qed.

(** an array of objects *)
Lemma elements_objects vs s : elements L vs s -> Forall (fun v => exists m, v = GMapS m) vs ->
  exists ts, spaced ts s /\ Forall2 (text L) vs ts /\ objects_in_elements L s ts.
Proof.
  induction 1 as [v s w1 w2 H1 H2 HT|v s w1 w2 vs s' H1 H2 HT HE IH]; intro HF; inversion HF as [|? ? [m ->] HF']; subst.
  - exists [s]. split; [constructor; auto|]. split; auto. apply oe_one; auto. eapply oi_object; eauto.
  - destruct (IH HF') as (ts & HS & H3 & HO). exists (s :: ts). split; [constructor; auto|]. split; auto.
    apply (oe_cons L s w1 w2 [s] s' ts); auto. eapply oi_object; eauto.
Qed.
Theorem split_array vs w1 t w2 : spaces w1 -> spaces w2 -> text L (GArr vs) t -> Forall (fun v => exists m, v = GMapS m) vs ->
  braceless_strings (w1 ++ t ++ w2) ->
  exists ts, split_objects (w1 ++ t ++ w2) = Some ts /\ Forall2 (text L) vs ts /\
    ((vs = [] /\ exists w, spaces w /\ t = "[" ++ w ++ "]") \/ (exists s, spaced ts s /\ t = "[" ++ s ++ "]")).
Proof.
  intros H1 H2 HT HF HB. inversion HT as [| | | | |w HW|? s HE| |]; subst.
  - exists []. split; [|split; auto; left; split; eauto]. eapply split_text; eauto; [discriminate|]. apply oi_empty; auto.
  - destruct (elements_objects _ _ HE HF) as (ts & HS & H3 & HO). exists ts. split; [|split; auto; right; eauto].
    eapply split_text; eauto; [discriminate|]. apply oi_array; auto.
Qed.
End WithLib.
