(** Proofs about counting the fields of a message. *)
From Coq Require Import List String Ascii Bool Arith ZArith Permutation Lia.
From Verif Require Import Base GoStr GoStr_facts GoFloat Types Json Messages Fields Spec_Glob Spec_Tree Spec_Names Glob_proofs Leaf_laws Mongo_proofs Number_proofs
  Spec_Fields.
Import ListNotations.
Open Scope string_scope.
Local Arguments String.prefix : simpl never.

(** ** Texts *)
Lemma app_cases x u : forall p q : string, x ++ u = p ++ q -> (exists z, p = x ++ z /\ u = z ++ q) \/ (exists z, x = p ++ z /\ q = z ++ u).
Proof.
  induction x as [|c x IH]; intros p q H.
  - left. exists p. auto.
  - destruct p as [|d p]; [right; exists (String c x); auto|]. simpl in H. injection H as <- H. destruct (IH p q H) as [(z & -> & ->)|(z & -> & ->)].
    + left. exists z. auto.
    + right. exists z. auto.
Qed.
Lemma occurs_char w c a b : w <> "" -> all_chars (fun d => d <> c) w -> occurs w (a ++ String c b) -> occurs w a \/ occurs w b.
Proof.
  intros HN HC (x & y & E). destruct (app_cases _ _ _ _ (eq_sym E)) as [(z & -> & E2)|(z & -> & E2)].
  - destruct (app_cases _ _ _ _ E2) as [(z' & -> & E3)|(z' & -> & E3)].
    + left. exists x, z'. auto.
    + destruct z' as [|d z']; simpl in E3.
      * left. exists x, "". rewrite append_nil_r. destruct z; [|simpl in HC; auto]. destruct (HN eq_refl). rewrite append_nil_r. auto.
      * injection E3 as <- E3. exfalso. clear -HC. induction z; simpl in HC; tauto.
  - destruct z as [|d z]; simpl in E2.
    + exfalso. destruct w; [auto|]. injection E2 as -> _. simpl in HC. tauto.
    + injection E2 as <- E2. right. exists z, y. auto.
Qed.

Section Replace.
Variables w r : string.
Variable c : ascii.
Hypothesis HN : w <> "".
Hypothesis HC : all_chars (fun d => d <> c) w.
Lemma prefix_char a b : String.prefix w (a ++ String c b) = String.prefix w a.
Proof.
  clear HN r. revert a HC. induction w as [|d w' IH]; intros a HC; [destruct a; reflexivity|]. destruct HC as [HD HC']. destruct a as [|e a].
  - change ("" ++ String c b) with (String c b). change (String.prefix (String d w') (String c b)) with (if ascii_dec d c then String.prefix w' b else false). destruct (ascii_dec d c); [congruence|reflexivity].
  - change (String.prefix (String d w') (String e a)) with (if ascii_dec d e then String.prefix w' a else false).
    change (String.prefix (String d w') (String e a ++ String c b)) with (if ascii_dec d e then String.prefix w' (a ++ String c b) else false).
    rewrite IH; auto.
Qed.
Lemma replace_from_char b : forall a k, (k <= String.length a)%nat ->
  replace_all_from w r k (a ++ String c b) = replace_all_from w r k a ++ String c (replace_all_from w r 0 b).
Proof.
  induction a as [|x a IH]; intros k HK.
  - destruct k; [|simpl in HK; lia]. change ("" ++ String c b) with (String c b). cbn [replace_all_from].
    pose proof (prefix_char "" b) as E. change ("" ++ String c b) with (String c b) in E. rewrite E. destruct w; [tauto|reflexivity].
  - destruct k as [|k].
    + change (String x a ++ String c b) with (String x (a ++ String c b)). cbn [replace_all_from].
      pose proof (prefix_char (String x a) b) as E. change (String x a ++ String c b) with (String x (a ++ String c b)) in E. rewrite E.
      destruct (String.prefix w (String x a)) eqn:EP.
      * apply prefix_iff in EP. destruct EP as [y EP]. rewrite IH, append_assoc; [reflexivity|].
        apply (f_equal String.length) in EP. rewrite length_append in EP. simpl in EP. lia.
      * rewrite IH by lia. reflexivity.
    + change (String x a ++ String c b) with (String x (a ++ String c b)). cbn [replace_all_from]. apply IH. simpl in HK. lia.
Qed.
Lemma replace_char_apart a b : replace_all (a ++ String c b) w r = replace_all a w r ++ String c (replace_all b w r).
Proof. apply replace_from_char. lia. Qed.
End Replace.

(** replacing at the ends of lines *)
Definition no_eol (s : string) : Prop := all_chars (fun c => c <> "010"%char) s.
Fixpoint at_end (w r l : string) : string :=
  if String.eqb l w then r else match l with EmptyString => "" | String c l' => String c (at_end w r l') end.
Lemma replace_skip w r x : forall s, replace_all_from w r (String.length x) (x ++ s) = replace_all_from w r 0 s.
Proof. induction x as [|c x IH]; intro s; [reflexivity|]. simpl. apply IH. Qed.
Lemma eol_prefix w l b : no_eol w -> no_eol l -> String.prefix (w ++ eol) (l ++ eol ++ b) = String.eqb l w.
Proof.
  intros HW HL. destruct (String.eqb l w) eqn:E.
  - apply String.eqb_eq in E. subst. apply prefix_iff. exists b. rewrite append_assoc. auto.
  - destruct (String.prefix _ _) eqn:EP; [|reflexivity]. apply prefix_iff in EP. destruct EP as [y EP]. exfalso. apply String.eqb_neq in E. apply E.
    rewrite append_assoc in EP. clear E. revert l HL EP. induction w as [|d w IH]; intros l HL EP; destruct l as [|e l]; auto.
    + simpl in EP. injection EP as -> _. destruct HL as [HL _]. destruct (HL eq_refl).
    + simpl in EP. injection EP as <- _. destruct HW as [HW _]. destruct (HW eq_refl).
    + simpl in EP. injection EP as -> EP. f_equal. destruct HW, HL. apply IH; auto.
Qed.
Lemma replace_end w r b : no_eol w -> w <> "" -> forall l, no_eol l ->
  replace_all (l ++ eol ++ b) (w ++ eol) (r ++ eol) = at_end w r l ++ eol ++ replace_all b (w ++ eol) (r ++ eol).
Proof.
  intros HW HN l. unfold replace_all. induction l as [|c l IH]; intro HL.
  - pose proof (eol_prefix w "" b HW I) as E. change ("" ++ eol ++ b) with (String "010" b) in *. cbn [replace_all_from]. rewrite E.
    cbn [at_end]. destruct (String.eqb "" w) eqn:EW; [apply String.eqb_eq in EW; subst; tauto|]. reflexivity.
  - pose proof (eol_prefix w (String c l) b HW HL) as E. change (String c l ++ eol ++ b) with (String c (l ++ eol ++ b)) in *. cbn [replace_all_from at_end]. rewrite E.
    destruct (String.eqb (String c l) w) eqn:EW.
    + apply String.eqb_eq in EW. subst w. rewrite append_assoc. f_equal. f_equal.
      replace (String.length (String c l ++ eol) - 1)%nat with (String.length (l ++ eol)) by (simpl; lia).
      change (l ++ eol ++ b) with (l ++ (eol ++ b)). rewrite <- append_assoc. apply replace_skip.
    + destruct HL as [_ HL]. rewrite (IH HL). reflexivity.
Qed.

(** ** Texts as lists of lines *)
Definition lines_text (ls : list string) (last : string) : string := fold_right (fun l t => l ++ eol ++ t) last ls.
Lemma lines_cons l ls last : lines_text (l :: ls) last = l ++ eol ++ lines_text ls last.
Proof. reflexivity. Qed.
Lemma text_lines_one l : no_eol l -> text_lines l = [l].
Proof.
  induction l as [|c l IH]; intro H; [reflexivity|]. destruct H as [HC H]. cbn [text_lines]. rewrite (IH H). apply Ascii.eqb_neq in HC. rewrite HC. reflexivity.
Qed.
Lemma text_lines_app l b : no_eol l -> text_lines (l ++ eol ++ b) = l :: text_lines b.
Proof.
  induction l as [|c l IH]; intro H; [reflexivity|]. destruct H as [HC H]. change (String c l ++ eol ++ b) with (String c (l ++ eol ++ b)). cbn [text_lines].
  rewrite (IH H). apply Ascii.eqb_neq in HC. rewrite HC. reflexivity.
Qed.
Lemma text_lines_text ls last : Forall no_eol ls -> no_eol last -> text_lines (lines_text ls last) = (ls ++ [last])%list.
Proof.
  intros HF HL. induction HF as [|l ls Hl HF IH]; [apply text_lines_one; auto|]. rewrite lines_cons, text_lines_app, IH; auto.
Qed.

(** the replacements on one line *)
Inductive step := Mid (w r : string) | Tail (w r : string) | Field (a b r : string).
Definition step_pair (s : step) : string * string :=
  match s with Mid w r => (w, r) | Tail w r => (w ++ eol, r ++ eol) | Field a b r => ((a ++ ": " ++ b) ++ eol, r ++ eol) end.
Definition step_line (s : step) (l : string) : string :=
  match s with Mid w r => replace_all l w r | Tail w r => at_end w r l | Field a b r => at_end (a ++ ": " ++ b) r l end.
Definition step_last (s : step) (l : string) : string := match s with Mid w r => replace_all l w r | _ => l end.
Definition no_eolb (s : string) : bool := forallb (fun c => negb (Ascii.eqb c "010")) (list_ascii_of_string s).
Lemma no_eolb_ok s : no_eolb s = true -> no_eol s.
Proof.
  unfold no_eolb. induction s as [|c s IH]; intro H; [exact I|]. cbn [list_ascii_of_string forallb] in H. apply andb_true_iff in H. destruct H as [H1 H2].
  split; [apply Ascii.eqb_neq, negb_true_iff; auto|exact (IH H2)].
Qed.
Definition good_step (s : step) : Prop :=
  match s with Mid w r | Tail w r => w <> "" /\ no_eol w /\ no_eol r | Field a b r => no_eol (a ++ ": " ++ b) /\ no_eol r end.

Lemma no_eol_app a b : no_eol (a ++ b) <-> no_eol a /\ no_eol b.
Proof. unfold no_eol. induction a; simpl; tauto. Qed.
Lemma replace_no_eol w r : no_eol r -> forall l k, no_eol l -> no_eol (replace_all_from w r k l).
Proof.
  intro HR. induction l as [|c l IH]; intros k HL; [exact I|]. destruct HL as [HC HL]. cbn [replace_all_from]. destruct k; [|auto].
  destruct (String.prefix w (String c l)); [apply no_eol_app; split; [auto|exact (IH _ HL)]|split; [auto|exact (IH _ HL)]].
Qed.
Lemma at_end_no_eol w r l : no_eol r -> no_eol l -> no_eol (at_end w r l).
Proof.
  intros HR. induction l as [|c l IH]; intro HL; cbn [at_end]; destruct (String.eqb _ _); auto. destruct HL as [HC HL]. split; [auto|exact (IH HL)].
Qed.
Lemma step_no_eol s l : good_step s -> no_eol l -> no_eol (step_line s l).
Proof.
  destruct s as [w r|w r|a b r]; simpl; intros H HL; [apply replace_no_eol; tauto|apply at_end_no_eol; tauto|apply at_end_no_eol; tauto].
Qed.
Lemma step_last_no_eol s l : good_step s -> no_eol l -> no_eol (step_last s l).
Proof. destruct s as [w r|w r|a b r]; simpl; intros H HL; auto. apply replace_no_eol; tauto. Qed.
Lemma absent_eol w l : no_eol l -> ~ occurs (w ++ eol) l.
Proof.
  intros HL (x & y & ->). rewrite !no_eol_app in HL. destruct HL as (_ & (_ & H & _) & _). exact (H eq_refl).
Qed.
Lemma step_lines s ls last : good_step s -> Forall no_eol ls -> no_eol last ->
  replace_all (lines_text ls last) (fst (step_pair s)) (snd (step_pair s)) = lines_text (map (step_line s) ls) (step_last s last).
Proof.
  intros HG HF HL. induction HF as [|l ls Hl HF IH].
  - change (lines_text [] last) with last. change (lines_text (map (step_line s) []) (step_last s last)) with (step_last s last). destruct s as [w r|w r|a b r]; cbn [step_pair fst snd step_last]; auto.
    + apply replace_absent, not_occurs, absent_eol; auto.
    + apply replace_absent, not_occurs, absent_eol; auto.
  - cbn [map]. rewrite !lines_cons, <- IH. destruct s as [w r|w r|a b r]; cbn [step_pair fst snd step_line].
    + destruct HG as (H1 & H2 & H3). change (l ++ eol ++ lines_text ls last) with (l ++ String "010" (lines_text ls last)).
      rewrite replace_char_apart; auto.
    + destruct HG as (H1 & H2 & H3). apply replace_end; auto.
    + destruct HG as (H2 & H3). apply replace_end; auto. destruct a; discriminate.
Qed.
Lemma fold_lines ss : Forall good_step ss -> forall ls last, Forall no_eol ls -> no_eol last ->
  fold_left (fun s p => replace_all s (fst p) (snd p)) (map step_pair ss) (lines_text ls last) =
  lines_text (map (fun l => fold_left (fun l s => step_line s l) ss l) ls) (fold_left (fun l s => step_last s l) ss last).
Proof.
  induction 1 as [|s ss HS H IH]; intros ls last HF HL; [simpl; rewrite map_id; auto|]. cbn [map fold_left].
  rewrite step_lines by auto. rewrite IH; [rewrite map_map; auto| |apply step_last_no_eol; auto].
  rewrite Forall_map. eapply Forall_impl; [|exact HF]. intros l Hl. apply step_no_eol; auto.
Qed.

(** ** The lines of a printed message *)
Definition steps : list step :=
  [Mid dqs ""; Mid "null" ""; Tail "," ""; Tail "{}" ""; Tail "{" ""; Tail "[" ""; Tail "}" ""; Tail "]" "";
   Mid "ValueInt:" "ValueInt-"; Mid "ValueFloat:" "ValueFloat-"; Mid "ValueRegex:" "ValueRegex-"; Mid "ValueTime:" "ValueTime-";
   Mid "UTC:" "UTC-"; Mid "RequestTimeMinutesParity:" "RequestTimeMinutesParity-"; Mid "ContextType:" "ContextType-";
   Field "Size" "0" "Size- 0"; Field "Duration" "0" "Duration- 0"; Field "ResponseCode" "0" "ResponseCode- 0";
   Tail "0001-01-01T00:00:00Z" ""; Field "IpFlag" "false" "IpFlag- false"; Mid "NetIp: " "NetIp- ";
   Mid "AttributeIsSenderLabel: " "AttributeIsSenderLabel- "; Mid "AttributeIsReceiverLabel: " "AttributeIsReceiverLabel- ";
   Mid "ValueIsReceiverLabel: " "ValueIsReceiverLabel- "; Mid "SourceLabels: " "SourceLabels- ";
   Mid "DestinationLabels: " "DestinationLabels- "; Mid "Regex: " "Regex- "].
Lemma steps_cleaning : cleaning = map step_pair steps.
Proof. reflexivity. Qed.
Lemma steps_good : Forall good_step steps.
Proof. repeat constructor; simpl; try discriminate; apply no_eolb_ok; reflexivity. Qed.
Definition clean_line (l : string) : string := fold_left (fun l s => step_line s l) steps l.
Definition clean_last (l : string) : string := fold_left (fun l s => step_last s l) steps l.
Lemma cleaned_lines ls last : Forall no_eol ls -> no_eol last -> cleaned (lines_text ls last) = lines_text (map clean_line ls) (clean_last last).
Proof. intros. unfold cleaned. rewrite steps_cleaning. apply fold_lines; auto. apply steps_good. Qed.

Definition hit (l : string) : nat := match field_match l with Some _ => 1 | None => 0 end.
Lemma count_hits ls : List.length (flat_map (fun l => match field_match l with Some x => [x] | None => [] end) ls) = list_sum (map hit ls).
Proof. induction ls as [|l ls IH]; [reflexivity|]. simpl. rewrite app_length, IH. unfold hit. destruct (field_match l); reflexivity. Qed.

(** ** One line *)
Lemma field_none l : ~ occurs ": " l -> field_match l = None.
Proof.
  induction l as [|c l IH]; intro H; [reflexivity|]. cbn [field_match]. rewrite IH.
  - destruct l as [|d [|e l]]; auto. destruct (Ascii.eqb_spec c ":"); auto. destruct (Ascii.eqb_spec d " "); auto. subst. exfalso. apply H. exists "", (String e l). auto.
  - intros (x & y & ->). apply H. exists (String c x), y. auto.
Qed.
Lemma quiet_first v : quiet v -> exists c r, v = String c r /\ re_space c = false.
Proof.
  intros [H1 H2 H3 _ _]. destruct v as [|c r]; [tauto|]. exists c, r. split; auto. destruct H2 as [[H2 _] _]. unfold re_space.
  assert (nat_of_ascii c <> 32)%nat.
  { intro E. apply H3. exists r. rewrite <- (ascii_nat_embedding c), E. reflexivity. }
  repeat (apply orb_false_iff; split); apply Nat.eqb_neq; lia.
Qed.
Lemma field_some k v : quiet v -> field_match (k ++ ": " ++ v) = Some (k ++ ": " ++ word_run v).
Proof.
  intro H. induction k as [|c k IH].
  - destruct (quiet_first v H) as (c & r & -> & E). change ("" ++ ": " ++ String c r) with (String ":" (String " " (String c r))).
    cbn [field_match]. assert (EN : field_match (String " " (String c r)) = None).
    { apply field_none. intros (x & y & EO). destruct x as [|a x]; [discriminate EO|]. simpl in EO. injection EO as _ EO.
      apply (q_words _ H ": "); [simpl; tauto|]. exists x, y. auto. }
    cbn [field_match] in EN. rewrite EN. rewrite E. reflexivity.
  - change (String c k ++ ": " ++ v) with (String c (k ++ ": " ++ v)). cbn [field_match]. rewrite IH. reflexivity.
Qed.

Definition no_colon (s : string) : Prop := all_chars (fun c => c <> ":"%char) s.
Lemma field_split p v x a y : no_colon p -> ~ occurs ": " v -> p ++ ": " ++ v = x ++ a ++ ": " ++ y -> p = x ++ a /\ v = y.
Proof.
  intros HP HV E. rewrite <- (append_assoc x a) in E. destruct (app_cases _ _ _ _ E) as [(z & E1 & E2)|(z & -> & E2)].
  - destruct z as [|c z]; [rewrite append_nil_r in E1; injection E2 as ->; auto|]. simpl in E2. injection E2 as <- E2.
    destruct z as [|d z]; [discriminate E2|]. simpl in E2. injection E2 as <- ->. exfalso. apply HV. exists z, y. auto.
  - destruct z as [|c z]; [rewrite append_nil_r; injection E2 as ->; auto|]. simpl in E2. injection E2 as <- E2. exfalso.
    clear -HP. unfold no_colon in HP. induction (x ++ a) as [|d s IH]; [destruct HP as [HP _]; apply HP; auto|destruct HP as [_ HP]; auto].
Qed.
Lemma at_end_absent w r l : w <> "" -> (forall x, l <> x ++ w) -> at_end w r l = l.
Proof.
  intros HN. induction l as [|c l IH]; intro H; cbn [at_end].
  - destruct (String.eqb_spec "" w); [subst; tauto|reflexivity].
  - destruct (String.eqb_spec (String c l) w) as [E|HD]; [destruct (H "" E)|]. f_equal. apply IH. intros x ->. apply (H (String c x)). auto.
Qed.
Lemma last_char s : s <> "" -> exists x c, s = x ++ String c "".
Proof.
  induction s as [|c s IH]; [tauto|]. intros _. destruct s as [|d s]; [exists "", c; auto|]. destruct IH as (x & e & ->); [discriminate|]. exists (String c x), e. auto.
Qed.
Lemma last_inj x y c d : x ++ String c "" = y ++ String d "" -> c = d.
Proof.
  revert y. induction x as [|a x IH]; intros [|b y] H; simpl in H.
  - injection H as ->. auto.
  - injection H as _ H. destruct y; discriminate H.
  - injection H as _ H. destruct x; discriminate H.
  - injection H as _ H. eauto.
Qed.
Definition no_space (s : string) : Prop := all_chars (fun c => c <> " "%char) s.
Definition no_charb (c : ascii) (s : string) : bool := forallb (fun d => negb (Ascii.eqb d c)) (list_ascii_of_string s).
Lemma no_charb_ok c s : no_charb c s = true -> all_chars (fun d => d <> c) s.
Proof.
  unfold no_charb. induction s as [|d s IH]; intro H; [exact I|]. cbn [list_ascii_of_string forallb] in H. apply andb_true_iff in H. destruct H as [H1 H2].
  split; [apply Ascii.eqb_neq, negb_true_iff; auto|exact (IH H2)].
Qed.

(** a replacement that leaves the line of a field alone *)
Definition silent (p w : string) : bool :=
  existsb (String.eqb w) loud_words && no_charb " " w && negb (contains (p ++ ":") w) && negb (String.eqb w "").
Definition passes (p : string) (s : step) : bool :=
  match s with
  | Mid w _ => silent p w || has_suffix w ": " && negb (has_suffix (p ++ ": ") w)
  | Tail w _ => silent p w || existsb (fun c => has_suffix w (String c "")) last_chars && negb (String.eqb w "")
  | Field a b _ => negb (has_suffix p a)
  end.
Section Line.
Variables p v : string.
Hypothesis HP : no_colon p.
Hypothesis HV : quiet v.
Lemma silent_absent w : silent p w = true -> ~ occurs w (p ++ ": " ++ v).
Proof.
  unfold silent. rewrite !andb_true_iff, !negb_true_iff, existsb_exists. intros [[[(w' & HI & E) H2] H3] H4]. apply String.eqb_eq in E. subst w'.
  apply String.eqb_neq in H4. apply no_charb_ok in H2. intro HO. replace (p ++ ": " ++ v) with ((p ++ ":") ++ String " " v) in HO by (rewrite append_assoc; reflexivity).
  destruct (occurs_char _ _ _ _ H4 H2 HO) as [HO'|HO'].
  - apply contains_occurs in HO'. congruence.
  - apply (q_words _ HV w); auto.
Qed.
Lemma passes_line s : passes p s = true -> step_line s (p ++ ": " ++ v) = p ++ ": " ++ v.
Proof.
  assert (HQ : ~ occurs ": " v) by (apply (q_words _ HV); simpl; tauto).
  destruct s as [w r|w r|a b r]; cbn [passes step_line].
  - intro H. apply replace_absent, not_occurs. apply orb_true_iff in H. destruct H as [H|H]; [apply silent_absent; auto|].
    apply andb_true_iff in H. destruct H as [H1 H2]. apply negb_true_iff in H2. apply has_suffix_iff in H1. destruct H1 as [a ->].
    intros (x & y & E). rewrite append_assoc in E. destruct (field_split _ _ _ _ _ HP HQ E) as [-> _].
    rewrite (proj2 (has_suffix_iff _ _)) in H2; [discriminate|]. exists x. rewrite append_assoc. auto.
  - intro H. apply at_end_absent.
    + intros ->. unfold silent in H. rewrite !andb_false_r in H. discriminate H.
    + intros x E. apply orb_true_iff in H. destruct H as [H|H].
      * apply (silent_absent w H). exists x, "". rewrite append_nil_r. auto.
      * apply andb_true_iff in H. destruct H as [H _]. apply existsb_exists in H. destruct H as (c & HI & H). apply has_suffix_iff in H. destruct H as [w' ->].
        destruct (last_char v (q_nonempty _ HV)) as (v' & d & EV). apply (q_last _ HV v' d EV).
        rewrite EV in E. rewrite <- !append_assoc in E. apply last_inj in E. subst. auto.
  - intro H. apply negb_true_iff in H. apply at_end_absent; [destruct a; discriminate|].
    intros x E. destruct (field_split _ _ _ _ _ HP HQ E) as [-> _].
    rewrite (proj2 (has_suffix_iff _ _)) in H; [discriminate|]. exists x. auto.
Qed.
Lemma passes_lines ss : forallb (passes p) ss = true -> fold_left (fun l s => step_line s l) ss (p ++ ": " ++ v) = p ++ ": " ++ v.
Proof.
  induction ss as [|s ss IH]; intro H; [reflexivity|]. cbn [forallb] in H. apply andb_true_iff in H. destruct H as [H1 H2]. cbn [fold_left].
  rewrite passes_line; auto.
Qed.
End Line.

Lemma cmap_keep s : all_chars (fun c => c <> dq) s -> cmap (subst1 dq "") s = s.
Proof.
  induction s as [|c s IH]; intro H; [reflexivity|]. destruct H as [HC H]. cbn [cmap]. unfold subst1 at 1. apply Ascii.eqb_neq in HC. rewrite HC. simpl. f_equal. auto.
Qed.
Lemma escape_quiet v : all_chars (fun c => (32 <= nat_of_ascii c)%nat /\ ~ In c [dq; bslash; "<"; ">"; "&"]%char) v -> json_escape v = v.
Proof.
  induction v as [|c v IH]; intro H; [reflexivity|]. destruct H as [[H1 H2] H]. cbn [json_escape]. rewrite (IH H). clear IH H. simpl in H2.
  unfold json_escape_char.
  assert (E : forall d, c <> d -> Ascii.eqb c d = false) by (intros; apply Ascii.eqb_neq; auto).
  rewrite !E by (intro; subst; tauto).
  repeat rewrite (proj2 (Nat.eqb_neq _ _)) by lia. rewrite (proj2 (Nat.ltb_ge _ _)) by lia. reflexivity.
Qed.
Lemma quiet_dq v : quiet v -> all_chars (fun c => c <> dq) v.
Proof.
  intros [_ H _ _ _]. induction v as [|c v IH]; [exact I|]. destruct H as [[_ H1] H2]. split; [intros ->; apply H1; simpl; auto|exact (IH H2)].
Qed.
Lemma quiet_eol v : quiet v -> no_eol v.
Proof.
  intros [_ H _ _ _]. induction v as [|c v IH]; [exact I|]. destruct H as [[H1 _] H2]. split; [intros ->; vm_compute in H1; lia|exact (IH H2)].
Qed.

(** the line of a field that is not the last one *)
Definition json_line (name t : string) : string := ("  " ++ dqs ++ name ++ dqs ++ ": " ++ t) ++ ",".
Definition later_steps : list step := skipn 3 steps.
Lemma clean_first name t v : no_charb dq name = true -> no_charb ":" name = true -> silent ("  " ++ name) "null" = true -> cmap (subst1 dq "") t = v -> quiet v ->
  clean_line (json_line name t) = fold_left (fun l s => step_line s l) later_steps (("  " ++ name) ++ ": " ++ v).
Proof.
  intros HN HC HS HT HV. unfold clean_line, steps, later_steps, steps. cbn [skipn]. set (rest := Tail "{}" "" :: _). cbn [fold_left]. f_equal.
  apply no_charb_ok in HN, HC.
  assert (E1 : step_line (Mid dqs "") (json_line name t) = (("  " ++ name) ++ ": " ++ v) ++ ",").
  { unfold step_line, json_line. change dqs with (String dq ""). rewrite replace_all_one, !cmap_app, HT, (cmap_keep name HN). reflexivity. }
  rewrite E1. clear E1.
  assert (E2 : step_line (Mid "null" "") ((("  " ++ name) ++ ": " ++ v) ++ ",") = (("  " ++ name) ++ ": " ++ v) ++ ",").
  { unfold step_line. rewrite replace_char_apart; [|discriminate|apply no_charb_ok; reflexivity].
    rewrite replace_absent; [reflexivity|]. apply not_occurs. apply silent_absent; auto. }
  rewrite E2. clear E2. cbn [step_line]. generalize (("  " ++ name) ++ ": " ++ v). intro l. clear.
  induction l as [|c l IH]; [reflexivity|]. change (String c l ++ ",") with (String c (l ++ ",")). cbn [at_end].
  destruct (String.eqb_spec (String c (l ++ ",")) ",") as [E|_]; [destruct l; discriminate E|]. rewrite IH. reflexivity.
Qed.

(** the lines that count *)
Definition regular (name : string) : bool :=
  no_charb dq name && no_charb ":" name && silent ("  " ++ name) "null" && forallb (passes ("  " ++ name)) later_steps &&
  (hit (clean_line (json_line name (json_string ""))) =? 0)%nat.
Definition value_text (v : string) : Prop := v = "" \/ quiet v.
Lemma colon_name name : no_charb ":" name = true -> no_colon ("  " ++ name).
Proof. intro H. apply no_charb_ok in H. split; [discriminate|]. split; [discriminate|exact H]. Qed.
Lemma string_value v : quiet v -> cmap (subst1 dq "") (json_string v) = v.
Proof.
  intro H. unfold json_string. rewrite escape_quiet by apply (q_chars _ H). rewrite !cmap_app, (cmap_keep v (quiet_dq _ H)).
  change (cmap (subst1 dq "") dqs) with "". simpl. apply append_nil_r.
Qed.
Lemma hit_regular name t v : regular name = true -> cmap (subst1 dq "") t = v -> quiet v -> hit (clean_line (json_line name t)) = 1%nat.
Proof.
  unfold regular. rewrite !andb_true_iff. intros ((((H1 & H2) & H3) & H4) & H5) HT HV. rewrite (clean_first name t v); auto.
  rewrite passes_lines; auto using colon_name. unfold hit. rewrite field_some; auto.
Qed.
Lemma hit_string name v : regular name = true -> value_text v ->
  hit (clean_line (json_line name (json_string v))) = if String.eqb v "" then 0%nat else 1%nat.
Proof.
  intros HR [->|HV].
  - unfold regular in HR. rewrite !andb_true_iff in HR. destruct HR as [_ H]. apply Nat.eqb_eq in H. exact H.
  - destruct (String.eqb_spec v "") as [E|_]; [destruct (q_nonempty _ HV E)|]. exact (hit_regular name _ v HR (string_value v HV) HV).
Qed.

(** the type *)
Lemma hit_type v : value_text v -> hit (clean_line (json_line "ContextType" (json_string v))) = 0%nat.
Proof.
  intros [->|HV]; [vm_compute; reflexivity|].
  rewrite (clean_first _ _ v); auto using string_value; try (vm_compute; reflexivity).
  set (early := firstn 11 later_steps). set (late := skipn 12 later_steps).
  change later_steps with (early ++ Mid "ContextType:" "ContextType-" :: late)%list. rewrite fold_left_app. cbn [fold_left].
  rewrite passes_lines; auto; [|split; [discriminate|]; split; [discriminate|apply no_charb_ok; reflexivity]].
  assert (E : step_line (Mid "ContextType:" "ContextType-") (("  " ++ "ContextType") ++ ": " ++ v) = "  ContextType- " ++ v).
  { unfold step_line. replace (("  " ++ "ContextType") ++ ": " ++ v) with ("  ContextType:" ++ String " " v) by reflexivity.
    rewrite replace_char_apart; [|discriminate|apply no_charb_ok; reflexivity]. rewrite (replace_absent _ _ v); [reflexivity|].
    apply not_occurs, (q_words _ HV). simpl. tauto. }
  rewrite E. clear E.
  assert (HO : ~ occurs ": " ("  ContextType- " ++ v)).
  { intros (x & y & E). change ("  ContextType- " ++ v) with (("  ContextType-" ++ " ") ++ v) in E.
    destruct (app_cases _ _ _ _ E) as [(z & -> & E2)|(z & E1 & E2)].
    - apply (q_words _ HV ": "); [simpl; tauto|]. exists z, y. auto.
    - repeat (destruct x as [|? x]; [simpl in E1; subst z; discriminate E2|simpl in E1; injection E1 as <- E1]).
      destruct x; [|discriminate E1]. simpl in E1. subst z. apply (q_words _ HV ": "); [simpl; tauto|]. exists "", y. symmetry. exact E2. }
  assert (HZ : ~ occurs "0001-01-01T00:00:00Z" ("  ContextType- " ++ v)).
  { intro H. change ("  ContextType- " ++ v) with ("  ContextType-" ++ String " " v) in H. apply occurs_char in H; [|discriminate|apply no_charb_ok; reflexivity].
    destruct H as [H|H]; [|apply (q_words _ HV "0001-01-01T00:00:00Z"); [simpl; tauto|auto]]. apply contains_occurs in H. vm_compute in H. discriminate H. }
  assert (F : forall ss, Forall (fun s => match s with Mid w _ => occurs ": " w | Tail w _ => w = "0001-01-01T00:00:00Z" | Field _ _ _ => True end) ss ->
    fold_left (fun l s => step_line s l) ss ("  ContextType- " ++ v) = "  ContextType- " ++ v).
  { induction 1 as [|s ss HS HF IH]; [reflexivity|]. cbn [fold_left]. replace (step_line s ("  ContextType- " ++ v)) with ("  ContextType- " ++ v); [apply IH|].
    symmetry. destruct s as [w r|w r|a b r]; cbn [step_line].
    - apply replace_absent, not_occurs. intros (x & y & E). destruct HS as (x' & y' & ->). apply HO. exists (x ++ x'), (y' ++ y). rewrite E, !append_assoc. reflexivity.
    - subst w. apply at_end_absent; [discriminate|]. intros x E. apply HZ. exists x, "". rewrite append_nil_r. exact E.
    - apply at_end_absent; [destruct a; discriminate|]. intros x E. apply HO. exists (x ++ a), b. rewrite E, !append_assoc. reflexivity. }
  rewrite F; [unfold hit; rewrite field_none; auto|].
  repeat (apply Forall_cons; [first [exact I|reflexivity|apply contains_occurs; reflexivity]|]). apply Forall_nil.
Qed.

(** the size *)
Lemma hit_size t : quiet t -> hit (clean_line (json_line "RequestSize" t)) = if String.eqb t "0" then 0%nat else 1%nat.
Proof.
  intro HV. destruct (String.eqb_spec t "0") as [->|HD]; [vm_compute; reflexivity|].
  assert (HC : no_colon ("  " ++ "RequestSize")) by (split; [discriminate|]; split; [discriminate|apply no_charb_ok; reflexivity]).
  rewrite (clean_first _ _ t); auto using cmap_keep, quiet_dq; try (vm_compute; reflexivity).
  set (early := firstn 12 later_steps). set (late := skipn 13 later_steps).
  change later_steps with (early ++ Field "Size" "0" "Size- 0" :: late)%list. rewrite fold_left_app. cbn [fold_left].
  rewrite passes_lines; auto.
  assert (E : step_line (Field "Size" "0" "Size- 0") (("  " ++ "RequestSize") ++ ": " ++ t) = ("  " ++ "RequestSize") ++ ": " ++ t).
  { cbn [step_line]. apply at_end_absent; [discriminate|]. intros x E.
    destruct (field_split _ _ _ _ _ HC (q_words _ HV ": " ltac:(simpl; tauto)) E) as [_ ->]. tauto. }
  rewrite E, passes_lines; auto. unfold hit. rewrite field_some; auto.
Qed.

(** ** The whole message *)
Fixpoint commas (ls : list string) : list string :=
  match ls with [] => [] | [x] => [x] | x :: r => (x ++ ",") :: commas r end.
Lemma block_lines x xs : block "" "{" "}" (x :: xs) = lines_text ("{" :: commas (map (fun y => "  " ++ y) (x :: xs))) "}".
Proof.
  rewrite lines_cons. unfold block.
  assert (HM : map (fun y => "" ++ "  " ++ y) (x :: xs) = map (fun y => "  " ++ y) (x :: xs)) by reflexivity. rewrite HM. clear HM.
  f_equal. f_equal. change ("" ++ "}") with "}". cbn [map]. generalize ("  " ++ x) as a. generalize (map (fun y => "  " ++ y) xs) as l. clear.
  induction l as [|b l IH]; intro a; [reflexivity|].
  change (commas (a :: b :: l)) with ((a ++ ",") :: commas (b :: l)). rewrite lines_cons, <- IH.
  change (join ("," ++ eol) (a :: b :: l)) with (a ++ ("," ++ eol) ++ join ("," ++ eol) (b :: l)). rewrite !append_assoc. reflexivity.
Qed.
Lemma last_hit : hit (clean_last "}") = 0%nat.
Proof. vm_compute. reflexivity. Qed.

Section Message.
Variable L : Lib.
Variable m : message.
Hypothesis HS : forall k f, In (k, f) string_keys -> value_text (f m).
Hypothesis HZ : quiet (fmt_int (m_size m)).
Hypothesis HV : m_enc_version m = None \/ exists x t, m_enc_version m = Some x /\ json_float L x = Some t /\ quiet t.
Hypothesis HR : m_json m = None /\ m_json_rel m = None /\ m_raw m = None /\ m_raw_rel m = None.

Definition given (s : string) : nat := if String.eqb s "" then 0 else 1.
Definition regular_keys : list (string * (message -> string)) := filter (fun kf => negb (String.eqb (fst kf) "request_type")) string_keys.
Lemma no_eol_value v : value_text v -> no_eol (json_string v).
Proof.
  intros [->|H]; [apply no_eolb_ok; reflexivity|]. unfold json_string. rewrite escape_quiet by apply (q_chars _ H).
  rewrite !no_eol_app. repeat split; try discriminate. apply quiet_eol; auto.
Qed.
Lemma json_line_eol name t : no_eolb name = true -> no_eol t -> no_eol (json_line name t).
Proof.
  intros HN HT. apply no_eolb_ok in HN. unfold json_line. rewrite !no_eol_app. split; [|split; [discriminate|exact I]].
  split; [apply no_eolb_ok; reflexivity|]. split; [apply no_eolb_ok; reflexivity|]. split; auto. split; [apply no_eolb_ok; reflexivity|].
  split; [apply no_eolb_ok; reflexivity|auto].
Qed.
Definition line_items (t : string) : list (string * string) :=
  [("SourceIp", json_string (m_source_ip m)); ("SourceNamespace", json_string (m_source_namespace m));
   ("SourceCluster", json_string (m_source_cluster m)); ("DestinationIp", json_string (m_dest_ip m));
   ("DestinationPort", json_string (m_dest_port m)); ("DestinationNamespace", json_string (m_dest_namespace m));
   ("DestinationCluster", json_string (m_dest_cluster m)); ("RequestPath", json_string (m_path m));
   ("RequestHost", json_string (m_host m)); ("RequestMethod", json_string (m_method m)); ("RequestSize", fmt_int (m_size m));
   ("RequestTime", json_string (m_time m)); ("RequestUseragent", json_string (m_useragent m));
   ("ContextProtocol", json_string (m_protocol m)); ("MessageID", json_string (m_id m));
   ("SourceService", json_string (m_source_service m)); ("DestinationService", json_string (m_dest_service m));
   ("SourceLabelsJson", json_string (m_source_labels_json m)); ("DestinationLabelsJson", json_string (m_dest_labels_json m));
   ("ContextType", json_string (m_context_type m)); ("EncryptionType", json_string (m_enc_type m)); ("EncryptionVersion", t);
   ("RequestJsonRaw", "null"); ("RequestJsonRawRelative", "null"); ("RequestRawInterface", "null"); ("RequestRawInterfaceRelative", "null");
   ("Domain", json_string (m_domain m)); ("RequestTimeSecondsFromMidnightUTC", "0"); ("RequestTimeMinutesFromMidnightUTC", "0");
   ("RequestTimeHoursFromMidnightUTC", "0"); ("SourceNetIp", dqs ++ dqs); ("DestinationNetIp", dqs ++ dqs); ("SourceLabels", "null")].
Lemma clean_no_eol l : no_eol l -> no_eol (clean_line l).
Proof.
  unfold clean_line. revert l. generalize steps_good. generalize steps as ss. induction 1 as [|s ss H1 H2 IH]; intros l Hl; [auto|].
  cbn [fold_left]. apply IH, step_no_eol; auto.
Qed.
Theorem message_count : exists json, message_json L m = Some json /\
  List.length (field_matches (cleaned json)) =
  (list_sum (map (fun kf => given (snd kf m)) regular_keys) + (if String.eqb (fmt_int (m_size m)) "0" then 0 else 1) +
   match m_enc_version m with Some _ => 1 | None => 0 end)%nat.
Proof.
  destruct HR as (R1 & R2 & R3 & R4).
  assert (HVT : exists t, or_null (json_float L) (m_enc_version m) = Some t /\ no_eol t /\
    hit (clean_line (json_line "EncryptionVersion" t)) = match m_enc_version m with Some _ => 1%nat | None => 0%nat end).
  { destruct HV as [E|(x & t & E & ET & HQ)]; rewrite E; cbn [or_null].
    - exists "null". split; [reflexivity|]. split; [apply no_eolb_ok; reflexivity|vm_compute; reflexivity].
    - exists t. split; [auto|]. split; [apply quiet_eol; auto|]. apply (hit_regular _ _ t); [vm_compute; reflexivity|apply cmap_keep, quiet_dq; auto|auto]. }
  destruct HVT as (t & ET & HT & EH).
  unfold message_json, message_fields. rewrite ET, R1, R2, R3, R4. cbn [or_null map option_map all_some fst snd].
  eexists. split; [reflexivity|]. rewrite block_lines. cbn [map]. 
  cbn [commas].
  match goal with |- context [lines_text ?ls "}"] =>
    replace ls with ("{" :: map (fun nt => json_line (fst nt) (snd nt)) (line_items t) ++ [("  " ++ dqs ++ "DestinationLabels" ++ dqs ++ ": " ++ "null")%string])%list by reflexivity
  end.
  set (lines := (_ :: _)%list).
  assert (HL : Forall no_eol lines).
  { unfold lines. apply Forall_cons; [apply no_eolb_ok; reflexivity|]. apply Forall_app. split; [|apply Forall_cons; [apply no_eolb_ok; reflexivity|apply Forall_nil]].
    rewrite Forall_map. unfold line_items.
    repeat (apply Forall_cons; [apply json_line_eol; [reflexivity|cbn [snd];
      first [exact HT|apply quiet_eol; exact HZ|apply no_eolb_ok; reflexivity|apply no_eol_value; eapply HS; unfold string_keys; simpl; eauto 30]]|]).
    apply Forall_nil. }
  rewrite cleaned_lines; [|exact HL|apply no_eolb_ok; reflexivity].
  unfold field_matches. rewrite text_lines_text.
  2: { rewrite Forall_map. eapply Forall_impl; [|exact HL]. intros l Hl. apply clean_no_eol; auto. }
  2: { apply no_eolb_ok. vm_compute. reflexivity. }
  rewrite count_hits, map_app, list_sum_app. cbn [map]. rewrite last_hit. unfold lines. clear lines HL.
  cbn [map]. rewrite map_app, !map_map, map_app, map_map. unfold line_items. cbn [map fst snd app].
  rewrite hit_type by (eapply HS; unfold string_keys; simpl; eauto 30). rewrite hit_size by auto. rewrite EH.
  repeat match goal with |- context [hit (clean_line (json_line ?n (json_string (?f m))))] =>
    rewrite (hit_string n (f m)); [|vm_compute; reflexivity|eapply HS; unfold string_keys; simpl; eauto 30] end.
  repeat match goal with |- context [hit (clean_line ?x)] =>
    let E := fresh in assert (E : hit (clean_line x) = 0%nat) by (vm_compute; reflexivity); rewrite E; clear E end.
  unfold regular_keys, string_keys. cbn [filter fst String.eqb Ascii.eqb Bool.eqb negb map snd list_sum fold_right]. unfold given. lia.
Qed.
End Message.

(** ** The lines of the YAML text *)
Lemma count_known (K : list string) : NoDup K -> forall l : list string, NoDup l -> incl l K ->
  List.length l = list_sum (map (fun k => if in_dec string_dec k l then 1%nat else 0%nat) K).
Proof.
  induction 1 as [|k K HN HK IH]; intros l HL HI.
  - destruct l as [|x l]; [reflexivity|]. destruct (HI x (or_introl eq_refl)).
  - cbn [map]. change (list_sum (?a :: ?b)) with (a + list_sum b)%nat. destruct (in_dec string_dec k l) as [Hk|Hk].
    + apply in_split in Hk. destruct Hk as (a & b & ->).
      assert (HE : list_sum (map (fun x => if in_dec string_dec x (a ++ k :: b)%list then 1%nat else 0%nat) K) =
        list_sum (map (fun x => if in_dec string_dec x (a ++ b)%list then 1%nat else 0%nat) K)).
      { f_equal. apply map_ext_in. intros x Hx. assert (x <> k) by (intros ->; auto).
        destruct (in_dec string_dec x (a ++ k :: b)) as [H1|H1], (in_dec string_dec x (a ++ b)) as [H2|H2]; auto; exfalso.
        - apply H2. apply in_app_iff in H1. apply in_app_iff. simpl in H1. destruct H1 as [H1|[H1|H1]]; auto. congruence.
        - apply H1. apply in_app_iff in H2. apply in_app_iff. simpl. tauto. }
      rewrite HE, <- IH.
      * rewrite !app_length. simpl. lia.
      * eapply NoDup_remove_1; eauto.
      * intros x Hx. assert (Hx2 : In x (a ++ k :: b)) by (apply in_app_iff in Hx; apply in_app_iff; simpl; tauto).
        destruct (HI x Hx2) as [<-|H]; auto. apply NoDup_remove_2 in HL. tauto.
    + simpl. apply IH; auto. intros x Hx. destruct (HI x Hx) as [<-|H]; [tauto|auto].
Qed.

Definition yaml_line (e : string * string) : string := fst e ++ ": " ++ snd e.
Lemma yaml_lines es : yaml_text es = lines_text (map yaml_line es) "".
Proof.
  unfold yaml_text. induction es as [|e es IH]; [reflexivity|]. cbn [map]. rewrite lines_cons, <- IH. unfold yaml_line at 1. rewrite !append_assoc.
  destruct es as [|e2 es]; [simpl; rewrite ?append_nil_r; reflexivity|]. cbn [map]. change (String.concat "" (?a :: ?b :: ?c)) with (a ++ "" ++ String.concat "" (b :: c)).
  rewrite !append_assoc. reflexivity.
Qed.

Lemma alnum_iff c : alnum c = true <-> letter_digit c.
Proof.
  unfold alnum, letter_digit. cbv zeta. rewrite !orb_true_iff, !andb_true_iff, !Nat.leb_le. lia.
Qed.
Lemma pair_cons c s : colon_pair (String c s) <-> (letter_digit c /\ exists b y, s = String ":" (String b y) /\ letter_digit b) \/ colon_pair s.
Proof.
  split.
  - intros (x & a & b & y & HA & HB & E). destruct x as [|d x]; simpl in E; injection E as -> ->; [left; eauto|right; exists x, a, b, y; auto].
  - intros [(HC & b & y & -> & HB)|(x & a & b & y & HA & HB & ->)]; [exists "", c, b, y; auto|exists (String c x), a, b, y; auto].
Qed.
Lemma pairs_cons c s : pairs (String c s) =
  match s with String d (String b r) => if alnum c && Ascii.eqb d ":" && alnum b then S (pairs r) else pairs s | _ => 0%nat end.
Proof. destruct s as [|d [|b r]]; reflexivity. Qed.
Lemma pairs_zero s : pairs s = 0%nat <-> ~ colon_pair s.
Proof.
  induction s as [|c s IH].
  - split; auto. intros _ (x & a & b & y & _ & _ & E). destruct x; discriminate E.
  - rewrite pair_cons, pairs_cons. destruct s as [|d [|b r]].
    + split; auto. intros _ [(_ & b & y & E & _)|(x & a & b & y & _ & _ & E)]; [discriminate E|destruct x; discriminate E].
    + split; auto. intros _ [(_ & b & y & E & _)|(x & a & b & y & _ & _ & E)]; [discriminate E|destruct x as [|? [|? x]]; discriminate E].
    + destruct (alnum c && Ascii.eqb d ":" && alnum b) eqn:E.
      * split; [discriminate|]. intro H. exfalso. apply H. left. rewrite !andb_true_iff, !alnum_iff in E. destruct E as [[E1 E2] E3]. apply Ascii.eqb_eq in E2. subst. eauto.
      * rewrite IH. split; [|tauto]. intros H [(HC & b' & y & E' & HB)|H2]; [|auto]. injection E' as -> -> ->.
        apply alnum_iff in HC, HB. rewrite HC, HB in E. discriminate E.
Qed.
Lemma pair_key k u : no_colon k -> (colon_pair (k ++ ": " ++ u) <-> colon_pair u).
Proof.
  induction k as [|c k IH]; intro HK.
  - change ("" ++ ": " ++ u) with (String ":" (String " " u)). rewrite !pair_cons. split; [|tauto]. intros [(H & _)|[(H & _)|H]]; auto; exfalso.
    + apply alnum_iff in H. discriminate H.
    + apply alnum_iff in H. discriminate H.
  - destruct HK as [HC HK]. change (String c k ++ ": " ++ u) with (String c (k ++ ": " ++ u)). rewrite pair_cons, (IH HK). split; [|tauto].
    intros [(_ & b & y & E & HB)|H]; auto. exfalso. destruct k as [|d k].
    + injection E as <- _. apply alnum_iff in HB. discriminate HB.
    + injection E as -> _. destruct HK as [HK _]. exact (HK eq_refl).
Qed.
Lemma space_iff c : re_space c = true <-> In (nat_of_ascii c) [32; 9; 10; 12; 13]%nat.
Proof. unfold re_space. cbv zeta. rewrite !orb_true_iff, !Nat.eqb_eq. cbn [In]. lia. Qed.
Lemma run_first v : first_word v (word_run v).
Proof.
  induction v as [|c v (r & E & HA & HR)]; [exists ""; simpl; auto|]. cbn [word_run]. destruct (re_space c) eqn:EC.
  - exists (String c v). split; [reflexivity|]. split; [exact I|]. right. exists c, v. split; auto. apply space_iff; auto.
  - exists r. split; [simpl; f_equal; exact E|]. split; [|exact HR]. split; [|exact HA]. rewrite <- space_iff, EC. discriminate.
Qed.
Lemma run_unique v u : first_word v u -> u = word_run v.
Proof.
  revert u. induction v as [|c v IH]; intros u (r & E & HA & HR).
  - destruct u; [reflexivity|discriminate E].
  - destruct u as [|d u].
    + simpl in E. subst r. destruct HR as [E|(c' & r' & E & HI)]; [discriminate E|]. injection E as -> ->. cbn [word_run]. rewrite (proj2 (space_iff c') HI). reflexivity.
    + simpl in E. injection E as -> E. destruct HA as [HD HA]. cbn [word_run]. destruct (re_space d) eqn:ED; [apply space_iff in ED; tauto|]. f_equal. apply IH. exists r. auto.
Qed.

(** ** The verdict *)
Section Verdict.
Variable L : Lib.
Variable es : list (string * string).
Variable m : message.
Hypothesis HD : describes L es m.
Lemma known_once : NoDup known_keys.
Proof.
  unfold known_keys. cbn [map fst string_keys]. repeat (apply NoDup_cons; [simpl; intro H; repeat (destruct H as [H|H]; [discriminate H|]); exact H|]). apply NoDup_nil.
Qed.
Lemma key_chars k v : In (k, v) es -> no_colon k /\ no_eol k.
Proof.
  intro H. apply (d_key _ _ _ HD) in H. unfold no_colon, no_eol. clear -H. induction k as [|c k IH]; [simpl; auto|]. destruct H as [HC H]. destruct (IH H) as [H1 H2].
  assert (F : forall d, ~ letter_digit d -> d <> "_"%char -> c <> d) by (intros d N1 N2 ->; tauto).
  split; (split; [apply F; [intro N; apply alnum_iff in N; discriminate N|discriminate]|auto]).
Qed.
Lemma one_value k v v' : In (k, v) es -> In (k, v') es -> v = v'.
Proof.
  generalize (d_once _ _ _ HD). clear. induction es as [|[k' w] l IH]; [intros _ []|]. cbn [map fst]. intro HN. inversion HN as [|? ? HI HN']. subst.
  intros [E|H] [E'|H'].
  - injection E as -> ->. injection E' as ->. auto.
  - injection E as -> ->. destruct HI. apply (in_map fst) in H'. exact H'.
  - injection E' as -> ->. destruct HI. apply (in_map fst) in H. exact H.
  - auto.
Qed.
Lemma quiet_zero : quiet "0".
Proof.
  constructor; [discriminate|split; [|exact I]| | |].
  - split; [vm_compute; lia|]. intros H. simpl in H. repeat (destruct H as [H|H]; [discriminate H|]). exact H.
  - intros [r E]. discriminate E.
  - intros w H HO. apply contains_occurs in HO. unfold loud_words in H. cbn [In] in H. repeat (destruct H as [<-|H]; [vm_compute in HO; discriminate HO|]). exact H.
  - intros x c E. destruct x as [|? [|? x]]; [|discriminate E|discriminate E]. injection E as <-. intro H. cbn [In last_chars] in H. repeat (destruct H as [H|H]; [discriminate H|]). exact H.
Qed.
Definition ms : list string := map (fun e => fst e ++ ": " ++ word_run (snd e)) es.
Lemma yaml_matches : field_matches (yaml_text es) = ms.
Proof.
  rewrite yaml_lines. unfold field_matches. rewrite text_lines_text; [|rewrite Forall_map; apply Forall_forall|exact I].
  - rewrite flat_map_app. cbn [flat_map field_match app]. rewrite app_nil_r. unfold ms.
    assert (HQ : Forall (fun e => quiet (snd e)) es) by (apply Forall_forall; intros [k v] H; exact (d_quiet _ _ _ HD k v H)).
    clear HD. induction HQ as [|e l H1 H2 IH]; [reflexivity|]. cbn [map flat_map]. unfold yaml_line at 1. rewrite field_some by auto. rewrite IH. reflexivity.
  - intros [k v] H. unfold yaml_line. cbn [fst snd]. rewrite !no_eol_app. split; [eapply key_chars; eauto|]. split; [apply no_eolb_ok; reflexivity|]. apply quiet_eol. exact (d_quiet _ _ _ HD k v H).
Qed.
Definition label_pairs (w : string) : nat := list_sum (map (fun s => if contains s w then pairs s else 0%nat) ms).
Lemma sum_zero {A} (f : A -> nat) l : list_sum (map f l) = 0%nat <-> forall x, In x l -> f x = 0%nat.
Proof.
  induction l as [|x l IH]; [split; [intros _ y []|auto]|]. cbn [map]. change (list_sum (?a :: ?b)) with (a + list_sum b)%nat. split.
  - intros H y [<-|Hy]; [lia|]. apply IH; auto. lia.
  - intro H. rewrite (H x) by (left; auto). apply IH. intros y Hy. apply H. right. auto.
Qed.
Lemma labels_zero : (label_pairs "sender_label" + label_pairs "receiver_label" = 0)%nat <->
  forall k v u, In (k, v) es -> first_word v u -> occurs "sender_label" (k ++ ": " ++ u) \/ occurs "receiver_label" (k ++ ": " ++ u) -> ~ colon_pair u.
Proof.
  assert (F : forall w, label_pairs w = 0%nat <-> forall k v, In (k, v) es -> occurs w (k ++ ": " ++ word_run v) -> ~ colon_pair (word_run v)).
  { intro w. unfold label_pairs. rewrite sum_zero. unfold ms. split.
    - intros H k v HI HO. specialize (H (k ++ ": " ++ word_run v)). rewrite (proj2 (contains_occurs _ _)) in H by exact HO.
      rewrite <- (pair_key k); [apply pairs_zero, H|eapply key_chars; eauto]. apply in_map_iff. exists (k, v). auto.
    - intros H x HI. apply in_map_iff in HI. destruct HI as ([k v] & <- & HI). cbn [fst snd]. destruct (contains _ w) eqn:E; [|reflexivity].
      apply contains_occurs in E. apply pairs_zero. rewrite pair_key; [eauto|eapply key_chars; eauto]. }
  rewrite Nat.eq_add_0, !F. split.
  - intros [H1 H2] k v u HI HU HO. rewrite (run_unique _ _ HU) in *. destruct HO; eauto.
  - intro H. split; intros k v HI HO; eapply H; eauto using run_first.
Qed.
Definition present (k : string) : nat := if in_dec string_dec k (map fst es) then 1%nat else 0%nat.
Lemma in_keys k v : In (k, v) es -> present k = 1%nat.
Proof. intro H. unfold present. destruct (in_dec _ _ _) as [_|HN]; [reflexivity|]. destruct HN. apply (in_map fst) in H. exact H. Qed.
Lemma not_in_keys k : ~ In k (map fst es) -> present k = 0%nat.
Proof. intro H. unfold present. destruct (in_dec _ _ _); [tauto|reflexivity]. Qed.
Definition strangers : list string := filter (fun k => negb (if in_dec string_dec k known_keys then true else false)) (map fst es).
Lemma entries_count : List.length es =
  (present "request_size" + present "encryption_version" + list_sum (map (fun kf => present (fst kf)) string_keys) + List.length strangers)%nat.
Proof.
  rewrite <- (map_length fst es). unfold strangers.
  set (l := map fst es). set (f := fun k => if in_dec string_dec k known_keys then true else false).
  assert (EL : List.length l = (List.length (filter f l) + List.length (filter (fun k => negb (f k)) l))%nat).
  { clear. induction l as [|x l IH]; [reflexivity|]. cbn [filter]. destruct (f x); simpl; lia. }
  rewrite EL. f_equal. rewrite (count_known known_keys).
  - rewrite <- Nat.add_assoc. unfold known_keys at 1. cbn [map]. rewrite map_map. cbn [list_sum fold_right].
    assert (EP : forall k, In k known_keys -> (if in_dec string_dec k (filter f l) then 1%nat else 0%nat) = present k).
    { intros k Hk. unfold present. fold l. destruct (in_dec string_dec k (filter f l)) as [H1|H1], (in_dec string_dec k l) as [H2|H2]; auto; exfalso.
      - apply filter_In in H1. tauto.
      - apply H1, filter_In. split; auto. unfold f. destruct (in_dec _ _ _); auto. }
    rewrite !EP by (simpl; tauto). do 2 f_equal. apply f_equal. apply map_ext_in. intros [k g] H. apply EP. right. right. apply (in_map fst) in H. exact H.
  - apply known_once.
  - apply NoDup_filter, (d_once _ _ _ HD).
  - intros k H. apply filter_In in H. destruct H as [_ H]. unfold f in H. destruct (in_dec _ _ _); [auto|discriminate H].
Qed.
Lemma no_strangers : List.length strangers = 0%nat <-> forall k v, In (k, v) es -> In k known_keys.
Proof.
  unfold strangers. split.
  - intros H k v HI. apply (in_map fst) in HI. cbn [fst] in HI. destruct (in_dec string_dec k known_keys) as [Hk|Hk]; auto. exfalso.
    assert (HF : In k (filter (fun k => negb (if in_dec string_dec k known_keys then true else false)) (map fst es))).
    { apply filter_In. split; auto. destruct (in_dec _ _ _); [tauto|reflexivity]. }
    destruct (filter _ _); [exact HF|discriminate H].
  - intro H. destruct (filter _ _) as [|k l] eqn:E; [reflexivity|]. exfalso.
    assert (HF : In k (k :: l)) by (left; auto). rewrite <- E in HF. apply filter_In in HF. destruct HF as [HF HK]. apply in_map_iff in HF.
    destruct HF as ([k' v] & <- & HI). destruct (in_dec _ _ _) as [_|HN]; [discriminate HK|]. apply HN. eapply H; eauto.
Qed.
Lemma given_present k f : In (k, f) string_keys -> given (f m) = present k.
Proof.
  intro H. destruct (d_string _ _ _ HD k f H) as [HI|[HN E]].
  - rewrite (in_keys _ _ HI). unfold given. destruct (String.eqb_spec (f m) "") as [E|_]; auto. destruct (q_nonempty _ (d_quiet _ _ _ HD _ _ HI) E).
  - rewrite (not_in_keys _ HN), E. reflexivity.
Qed.
Theorem count_verdict :
  (yaml_read_message L (Some m) (yaml_text es) = Ok (add_resource_type m) <-> countable es) /\
  (yaml_read_message L (Some m) (yaml_text es) = Ok (add_resource_type m) \/ yaml_read_message L (Some m) (yaml_text es) = Err).
Proof.
  assert (HS : forall k f, In (k, f) string_keys -> value_text (f m)).
  { intros k f H. destruct (d_string _ _ _ HD k f H) as [HI|[_ E]]; [right; exact (d_quiet _ _ _ HD _ _ HI)|left; auto]. }
  assert (HZ : quiet (fmt_int (m_size m))).
  { destruct (d_size _ _ _ HD) as [HI|[_ E]]; [exact (d_quiet _ _ _ HD _ _ HI)|]. rewrite E. exact quiet_zero. }
  assert (HV : m_enc_version m = None \/ exists x t, m_enc_version m = Some x /\ json_float L x = Some t /\ quiet t).
  { destruct (d_version _ _ _ HD) as [(v & x & t & _ & H1 & H2 & H3)|[_ H]]; [right; eauto|left; auto]. }
  destruct (message_count L m HS HZ HV (d_raw _ _ _ HD)) as (json & EJ & EC).
  unfold yaml_read_message. rewrite EJ. unfold compare_json_yaml. cbv zeta. rewrite yaml_matches.
  fold (label_pairs "sender_label") (label_pairs "receiver_label"). replace (List.length ms) with (List.length es) by (unfold ms; rewrite map_length; reflexivity). rewrite EC, entries_count.
  assert (E1 : (list_sum (map (fun kf => given (snd kf m)) regular_keys) + present "request_type" = list_sum (map (fun kf => present (fst kf)) string_keys))%nat).
  { assert (EG : map (fun kf => given (snd kf m)) regular_keys = map (fun kf => present (fst kf)) regular_keys).
    { apply map_ext_in. intros [k f] H. apply given_present. unfold regular_keys in H. apply filter_In in H. tauto. }
    rewrite EG. unfold regular_keys, string_keys. cbn [filter fst String.eqb Ascii.eqb Bool.eqb negb map snd list_sum fold_right]. lia. }
  assert (E2 : present "encryption_version" = match m_enc_version m with Some _ => 1%nat | None => 0%nat end).
  { destruct (d_version _ _ _ HD) as [(v & x & t & HI & -> & _)|[HN ->]]; [exact (in_keys _ _ HI)|exact (not_in_keys _ HN)]. }
  assert (E3 : ((if String.eqb (fmt_int (m_size m)) "0" then 0 else 1) <= present "request_size")%nat).
  { destruct (d_size _ _ _ HD) as [HI|[HN ->]]; [rewrite (in_keys _ _ HI); destruct (String.eqb _ _); lia|]. change (String.eqb (fmt_int 0) "0") with true. cbv iota. lia. }
  assert (E4 : (if String.eqb (fmt_int (m_size m)) "0" then 0 else 1)%nat = present "request_size" <-> ~ In ("request_size", "0") es).
  { destruct (d_size _ _ _ HD) as [HI|[HN EZ]].
    - rewrite (in_keys _ _ HI). destruct (String.eqb_spec (fmt_int (m_size m)) "0") as [E|HE].
      + rewrite E in HI. split; [discriminate|tauto].
      + split; auto. intros _ H. apply HE. eapply one_value; eauto.
    - rewrite (not_in_keys _ HN), EZ. change (String.eqb (fmt_int 0) "0") with true. split; auto. intros _ H. apply HN. apply (in_map fst) in H. exact H. }
  assert (E5 : present "request_type" = 0%nat <-> ~ In "request_type" (map fst es)).
  { unfold present. destruct (in_dec _ _ _); split; try tauto; discriminate. }
  set (size := if String.eqb (fmt_int (m_size m)) "0" then 0%nat else 1%nat) in *. rewrite <- E2.
  split.
  - destruct (Nat.eqb_spec (present "request_size" + present "encryption_version" + list_sum (map (fun kf => present (fst kf)) string_keys) + List.length strangers +
      label_pairs "sender_label" + label_pairs "receiver_label") (list_sum (map (fun kf => given (snd kf m)) regular_keys) + size + present "encryption_version")) as [E|E].
    + split; [intros _|reflexivity]. constructor; [apply no_strangers; lia|apply E5; lia|apply E4; lia|apply labels_zero; lia].
    + split; [discriminate|]. intros [H0 H1 H2 H3]. apply no_strangers in H0. apply E5 in H1. apply E4 in H2. apply labels_zero in H3. lia.
  - destruct (Nat.eqb _ _); auto.
Qed.
End Verdict.

(** ** Checking the hypotheses *)
Definition quietb (v : string) : bool :=
  negb (String.eqb v "") &&
  forallb (fun c => (32 <=? nat_of_ascii c)%nat && negb (existsb (Ascii.eqb c) [dq; bslash; "<"; ">"; "&"]%char)) (list_ascii_of_string v) &&
  negb (String.prefix " " v) && forallb (fun w => negb (contains v w)) loud_words &&
  forallb (fun c => negb (has_suffix v (String c ""))) last_chars.
Lemma quietb_ok v : quietb v = true -> quiet v.
Proof.
  unfold quietb. rewrite !andb_true_iff, !negb_true_iff, !forallb_forall. intros ((((H1 & H2) & H3) & H4) & H5). constructor.
  - apply String.eqb_neq; auto.
  - clear H1 H3 H4 H5. induction v as [|c v IH]; [exact I|]. cbn [list_ascii_of_string] in H2. split.
    + specialize (H2 c (or_introl eq_refl)). apply andb_true_iff in H2. destruct H2 as [H H']. apply Nat.leb_le in H. split; auto. intro HI.
      apply negb_true_iff in H'. rewrite (proj2 (existsb_exists _ _)) in H'; [discriminate|]. exists c. split; auto. apply Ascii.eqb_refl.
    + apply IH. intros x Hx. apply H2. right. auto.
  - intros HS. apply prefix_iff in HS. congruence.
  - intros w HI HO. apply contains_occurs in HO. specialize (H4 w HI). rewrite HO in H4. discriminate H4.
  - intros x c -> HI. specialize (H5 c HI). rewrite (proj2 (has_suffix_iff _ _)) in H5; [discriminate H5|]. exists x. auto.
Qed.
Definition inb (k : string) (es : list (string * string)) : bool := existsb (String.eqb k) (map fst es).
Definition pairb (k v : string) (es : list (string * string)) : bool := existsb (fun e => String.eqb (fst e) k && String.eqb (snd e) v) es.
Fixpoint onceb (l : list string) : bool := match l with [] => true | x :: r => negb (existsb (String.eqb x) r) && onceb r end.
Lemma existsb_in k l : existsb (String.eqb k) l = true <-> In k l.
Proof. rewrite existsb_exists. split; [intros (x & H & E); apply String.eqb_eq in E; subst; auto|intro; exists k; split; auto; apply String.eqb_refl]. Qed.
Lemma inb_false k es : inb k es = false -> ~ In k (map fst es).
Proof. unfold inb. intros H HI. apply existsb_in in HI. congruence. Qed.
Lemma pairb_ok k v es : pairb k v es = true -> In (k, v) es.
Proof.
  unfold pairb. rewrite existsb_exists. intros ([k' v'] & H & E). apply andb_true_iff in E. destruct E as [E1 E2]. apply String.eqb_eq in E1, E2. simpl in E1, E2. subst. auto.
Qed.
Lemma onceb_ok l : onceb l = true -> NoDup l.
Proof.
  induction l as [|x l IH]; intro H; [apply NoDup_nil|]. cbn [onceb] in H. apply andb_true_iff in H. destruct H as [H1 H2]. apply NoDup_cons; auto.
  intro HI. apply existsb_in in HI. rewrite HI in H1. discriminate H1.
Qed.
Definition describesb (L : Lib) (es : list (string * string)) (m : message) : bool :=
  onceb (map fst es) &&
  forallb (fun e => forallb (fun c => alnum c || Ascii.eqb c "_") (list_ascii_of_string (fst e)) && quietb (snd e)) es &&
  forallb (fun kf => pairb (fst kf) (snd kf m) es || negb (inb (fst kf) es) && String.eqb (snd kf m) "") string_keys &&
  (pairb "request_size" (fmt_int (m_size m)) es || negb (inb "request_size" es) && (m_size m =? 0)%Z) &&
  match m_enc_version m with
  | Some x => inb "encryption_version" es && match json_float L x with Some t => quietb t | None => false end
  | None => negb (inb "encryption_version" es)
  end &&
  match m_json m, m_json_rel m, m_raw m, m_raw_rel m with None, None, None, None => true | _, _, _, _ => false end.
Lemma describesb_ok L es m : describesb L es m = true -> describes L es m.
Proof.
  unfold describesb. rewrite !andb_true_iff, !forallb_forall. intros (((((H1 & H2) & H3) & H4) & H5) & H6). constructor.
  - apply onceb_ok; auto.
  - intros k v HI. specialize (H2 _ HI). apply andb_true_iff in H2. destruct H2 as [H2 _]. cbn [fst] in H2. clear -H2.
    induction k as [|c k IH]; [exact I|]. cbn [list_ascii_of_string forallb] in H2. apply andb_true_iff in H2. destruct H2 as [H H2]. split; [|exact (IH H2)].
    apply orb_true_iff in H. rewrite alnum_iff in H. destruct H as [H|H]; auto. apply Ascii.eqb_eq in H. auto.
  - intros k v HI. specialize (H2 _ HI). apply andb_true_iff in H2. apply quietb_ok, H2.
  - intros k f HI. specialize (H3 _ HI). cbn [fst snd] in H3. apply orb_true_iff in H3. destruct H3 as [H|H]; [left; apply pairb_ok; auto|right].
    apply andb_true_iff in H. destruct H as [H H']. apply negb_true_iff in H. split; [apply inb_false; auto|apply String.eqb_eq; auto].
  - apply orb_true_iff in H4. destruct H4 as [H|H]; [left; apply pairb_ok; auto|right].
    apply andb_true_iff in H. destruct H as [H H']. apply negb_true_iff in H. split; [apply inb_false; auto|apply Z.eqb_eq; auto].
  - destruct (m_enc_version m) as [x|].
    + left. apply andb_true_iff in H5. destruct H5 as [H H']. unfold inb in H. apply existsb_in in H. apply in_map_iff in H. destruct H as ([k v] & E & HI). cbn [fst] in E. subst k.
      destruct (json_float L x) as [t|] eqn:ET; [|discriminate H']. exists v, x, t. split; [auto|split; [auto|split; [auto|apply quietb_ok; auto]]].
    + right. apply negb_true_iff in H5. split; [apply inb_false; auto|auto].
  - destruct (m_json m), (m_json_rel m), (m_raw m), (m_raw_rel m); try discriminate H6. auto.
Qed.

Definition empty_with (labels type : string) : message :=
  mkMessage "" "" "" "" "" "" "" "" "" "" 0 "" "" "" "" "" "" labels "" type "" None None None None None "" f_zero f_zero f_zero [] [] [] [].
Theorem read_refused L es : In es [[("request_type", "http")]; [("request_size", "0")]; [("sender_labels", "app:web")]] ->
  (forall k v, In (k, v) es -> In k known_keys) /\ exists m, describes L es m /\ yaml_read_message L (Some m) (yaml_text es) = Err.
Proof.
  intro H. simpl in H. destruct H as [<-|[<-|[<-|[]]]]; (split; [intros k v [E|[]]; injection E as <- <-; simpl; tauto|]).
  - exists (empty_with "" "http"). split; [apply describesb_ok; reflexivity|vm_compute; reflexivity].
  - exists (empty_with "" ""). split; [apply describesb_ok; reflexivity|vm_compute; reflexivity].
  - exists (empty_with "app:web" ""). split; [apply describesb_ok; reflexivity|vm_compute; reflexivity].
Qed.
Theorem unknown_refused L es m k v : describes L es m -> In (k, v) es -> ~ In k known_keys -> yaml_read_message L (Some m) (yaml_text es) = Err.
Proof.
  intros HD HI HK. destruct (count_verdict L es m HD) as [H1 [H2|H2]]; auto. apply H1 in H2. destruct HK. eapply (co_known _ H2); eauto.
Qed.
