(** The reference library looks up paths of plain names. *)
From Coq Require Import List String Ascii Bool Arith ZArith Lia.
From Verif Require Import Base GoStr GoStr_facts GoFloat Types Spec_Glob Spec_Tree Spec_Leaf RefLib Spec_MongoMatch.
Import ListNotations.
Open Scope string_scope.

Lemma plain_char c : Spec_MongoMatch.name_char c -> RefLib.name_char c = true.
Proof.
  unfold Spec_MongoMatch.name_char. intro H. unfold RefLib.name_char. apply negb_true_iff. apply not_true_iff_false. intro E. apply existsb_exists in E.
  destruct E as (x & HX & E). apply Ascii.eqb_eq in E. subst x. cbv zeta in H.
  repeat (destruct HX as [<-|HX]; [vm_compute in H; lia|]). destruct HX.
Qed.
Lemma span_plain k r : all_chars Spec_MongoMatch.name_char k -> match r with String c _ => RefLib.name_char c = false | EmptyString => True end ->
  span_name (k ++ r) = (k, r).
Proof.
  intros HK HR. induction k as [|c k IH]; cbn [append span_name].
  - destruct r as [|c r]; auto. cbn [span_name]. rewrite HR. auto.
  - destruct HK as [HC HK]. rewrite plain_char by auto. rewrite IH by auto. auto.
Qed.

Definition after (r : string) : Prop := match r with String c _ => RefLib.name_char c = false | EmptyString => True end.
Lemma key_step f k r : field_name k -> after r -> parse_steps (S f) (String "." (k ++ r)) = option_map (cons (SKey k)) (parse_steps f r).
Proof.
  intros [HN HK] HR. pose proof (span_plain k r HK HR) as HS. destruct k as [|c k]; [congruence|]. destruct HK as [HC HK].
  assert (c <> "." /\ c <> "*")%char as [N1 N2].
  { pose proof (plain_char c HC) as P. split; intros ->; discriminate. }
  cbn [append] in *. cbn [parse_steps]. destruct c as [[] [] [] [] [] [] [] []]; try rewrite HS; try reflexivity; congruence.
Qed.
Lemma dotted_cons k ks : ks <> [] -> dotted (k :: ks) = k ++ "." ++ dotted ks.
Proof. destruct ks; [congruence|]. reflexivity. Qed.
Lemma dotted_steps ks r : Forall field_name ks -> ks <> [] -> after r -> forall f, (String.length ("." ++ dotted ks ++ r) < f)%nat ->
  exists g, (String.length r < g)%nat /\ parse_steps f ("." ++ dotted ks ++ r) = option_map (app (map SKey ks)) (parse_steps g r).
Proof.
  intros HF HN HR. induction HF as [|k ks HK HF IH]; [congruence|]. intros f Hf. destruct f as [|f]; [simpl in Hf; lia|]. destruct ks as [|k' ks].
  - exists f. unfold dotted in *. cbn [String.concat] in *. split; [simpl in Hf; rewrite length_append in Hf; lia|]. cbn [append] in *. rewrite key_step by auto. reflexivity.
  - rewrite dotted_cons in * by discriminate. destruct (IH ltac:(discriminate) f) as (g & Hg & E).
    { cbn [append String.length] in *. rewrite !length_append in *. cbn [String.length] in *. rewrite ?length_append in *. lia. }
    exists g. split; auto. rewrite !append_assoc. change (parse_steps (S f) (String "." (k ++ ("." ++ dotted (k' :: ks) ++ r))) = option_map (app (map SKey (k :: k' :: ks))) (parse_steps g r)).
    rewrite key_step; auto; [|reflexivity]. rewrite E. destruct (parse_steps g r); reflexivity.
Qed.

Lemma walk_path ks d w rest : at_path ks d w ->
  walk (map SKey ks ++ rest) d = match w with Some v => walk rest v | None => walk (map SKey ks ++ rest) d end /\
  (w = None -> exists e, walk (map SKey ks ++ rest) d = Fail e).
Proof.
  induction 1 as [v|k ks o x w HA HP [IH1 IH2]|k ks o HA|k ks v H1 H2]; cbn [map app].
  - split; auto. discriminate.
  - cbn [walk]. rewrite HA. auto.
  - split; auto. intros _. cbn [walk]. rewrite HA. eauto.
  - split; auto. intros _. destruct v; cbn [walk]; eauto. exfalso. eapply H1. reflexivity.
Qed.

Lemma ref_plain_path ks mark : ks <> [] -> Forall field_name ks -> In mark [""; "[:]"; "[*]"] ->
  ref_jp_prepare ("$." ++ dotted ks ++ mark) = Some (map SKey ks ++ (if String.eqb mark "" then [] else [SAll]))%list.
Proof.
  intros HN HF HM. unfold ref_jp_prepare. cbn [append]. set (f := String.length _).
  destruct (dotted_steps ks mark HF HN) with (f := f) as (g & Hg & E).
  { destruct HM as [<-|[<-|[<-|[]]]]; reflexivity || exact I. }
  { unfold f. cbn [append String.length]. lia. }
  change (String "." (dotted ks ++ mark)) with ("." ++ dotted ks ++ mark). rewrite E.
  destruct HM as [<-|[<-|[<-|[]]]]; cbn [String.length] in Hg; (destruct g as [|[|g]]; try lia; reflexivity).
Qed.

Theorem RefLib_path : PathSpec RefLib.
Proof.
  split.
  - intros ks q d w HN HF HQ HA. cbn [RefLib jp_prepare] in HQ. pose proof (ref_plain_path ks "" HN HF ltac:(simpl; auto)) as E. rewrite append_nil_r in E. cbn [String.eqb] in E.
    unfold asks. cbn [RefLib jp_query]. change (ref_jp_prepare ("$." ++ dotted ks) = Some q) in HQ. rewrite E in HQ. injection HQ as <-.
    destruct (walk_path ks d w [] HA) as [W1 W2]. unfold ref_jp_query. destruct w as [v|].
    + rewrite W1. reflexivity.
    + destruct (W2 eq_refl) as [e ->]. destruct (contains e _); auto.
  - intros ks mark q d w HN HF HM HQ HA. change (ref_jp_prepare ("$." ++ dotted ks ++ mark) = Some q) in HQ. rewrite ref_plain_path in HQ by (auto; simpl in *; tauto).
    injection HQ as <-. replace (String.eqb mark "") with false by (destruct HM as [<-|[<-|[]]]; reflexivity).
    destruct (walk_path ks d w [SAll] HA) as [W1 W2]. cbn [RefLib jp_query]. unfold ref_jp_query. destruct w as [v|].
    + rewrite W1. destruct v; auto. cbn [walk items fst]. f_equal. clear. induction l; cbn [map merge walk]; auto. f_equal. auto.
    + destruct (W2 eq_refl) as [e ->]. auto.
Qed.

(** and the entries of objects *)
Theorem RefLib_entries : EntriesSpec RefLib.
Proof.
  split; [discriminate|]. intros ks q d HN HF HQ HA. change (ref_jp_prepare ("$." ++ dotted ks) = Some q) in HQ.
  pose proof (ref_plain_path ks "" HN HF ltac:(simpl; auto)) as E. rewrite append_nil_r in E. cbn [String.eqb] in E. rewrite E in HQ. injection HQ as <-.
  destruct (walk_path ks d None [] HA) as [_ W]. cbn [RefLib jp_query]. unfold ref_jp_query. destruct (W eq_refl) as [e ->]. reflexivity.
Qed.
