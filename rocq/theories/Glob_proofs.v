(** The rewritten patterns denote glob languages. *)
From Coq Require Import List String Ascii Bool Arith ZArith Lia.
From Verif Require Import Base GoStr GoStr_facts GoFloat Types StrUtils Validate Spec_Regex Spec_Glob.
Import ListNotations.
Open Scope string_scope.

(** ** Replacement of single characters *)
Fixpoint cmap (f : ascii -> string) (s : string) : string :=
  match s with EmptyString => "" | String c s' => f c ++ cmap f s' end.

Definition subst1 (c : ascii) (new : string) (x : ascii) : string := if Ascii.eqb x c then new else String x "".

Lemma prefix_one c x s : String.prefix (String c "") (String x s) = Ascii.eqb x c.
Proof.
  simpl. destruct (ascii_dec c x) as [->|N]; [rewrite Ascii.eqb_refl; destruct s; auto|].
  symmetry. apply Ascii.eqb_neq. congruence.
Qed.

Lemma replace_all_one c new s : replace_all s (String c "") new = cmap (subst1 c new) s.
Proof.
  unfold replace_all. induction s as [|x s IH]; auto.
  cbn [replace_all_from cmap]. rewrite prefix_one. unfold subst1 at 1.
  destruct (Ascii.eqb x c); simpl; rewrite IH; auto.
Qed.

Lemma cmap_app f a b : cmap f (a ++ b) = cmap f a ++ cmap f b.
Proof. induction a; simpl; auto. rewrite IHa, append_assoc. auto. Qed.

Lemma cmap_cmap f g s : cmap f (cmap g s) = cmap (fun c => cmap f (g c)) s.
Proof. induction s; simpl; auto. rewrite cmap_app, IHs. auto. Qed.

Lemma cmap_ext f g s : (forall c, f c = g c) -> cmap f s = cmap g s.
Proof. intro H. induction s; simpl; auto. rewrite H, IHs. auto. Qed.

Definition esc (c : ascii) : string :=
  if Ascii.eqb c "." then "[.]"
  else if Ascii.eqb c "$" then "\$"
  else if Ascii.eqb c "^" then "\^"
  else if Ascii.eqb c "*" then ".*"
  else if Ascii.eqb c "?" then "."
  else if Ascii.eqb c "/" then "\/"
  else String c "".

Lemma escape_pattern_cmap s : escape_pattern s = cmap esc s.
Proof.
  unfold escape_pattern. rewrite !replace_all_one, !cmap_cmap. apply cmap_ext.
  intros [[] [] [] [] [] [] [] []]; reflexivity.
Qed.

(** ** The expression denoted by an escaped pattern *)
Definition rx_char (c : ascii) : rx :=
  if Ascii.eqb c "*" then RStar any_char else if Ascii.eqb c "?" then any_char else lit c.
Fixpoint rx_pat (s : string) (k : rx) : rx :=
  match s with EmptyString => k | String c s' => RSeq (rx_char c) (rx_pat s' k) end.

Lemma esc_atom c : pattern_char c -> atom_text (esc c) (rx_char c).
Proof.
  intros [HN HC]. unfold esc, rx_char.
  destruct (Ascii.eqb_spec c "."); [subst; constructor|].
  destruct (Ascii.eqb_spec c "$"); [subst; constructor; simpl; auto|].
  destruct (Ascii.eqb_spec c "^"); [subst; constructor; simpl; auto|].
  destruct (Ascii.eqb_spec c "*"); [subst; constructor|].
  destruct (Ascii.eqb_spec c "?"); [subst; constructor|].
  destruct (Ascii.eqb_spec c "/"); [subst; constructor; simpl; auto|].
  constructor. split; auto. intro H. simpl in H, HC. intuition congruence.
Qed.

Lemma seq_pat s k tk : pattern_ok s -> seq_text tk k -> seq_text (cmap esc s ++ tk) (rx_pat s k).
Proof.
  intros HP HK. induction s as [|c s IH]; simpl; auto.
  destruct HP as [HC HP]. rewrite append_assoc. constructor; auto. apply esc_atom; auto.
Qed.

Definition anchored (s : string) : rx := RSeq RBegin (rx_pat s (RSeq REnd REps)).

Lemma anchored_text s : pattern_ok s -> seq_text ("^" ++ escape_pattern s ++ "$") (anchored s).
Proof.
  intro HP. rewrite escape_pattern_cmap. apply (st_cons "^"); [constructor|]. apply seq_pat; auto.
  apply (st_cons "$" _ ""); constructor.
Qed.

(** ** Its language *)
Lemma mat_any p m q : mat any_char p m q <-> exists c, m = String c "" /\ c <> newline.
Proof.
  unfold any_char. split.
  - intro H. inversion H as [|f c p0 q0 HF| | | | | | |]; subst. exists c. split; auto.
    apply negb_true_iff in HF. apply Ascii.eqb_neq; auto.
  - intros (c & -> & H). constructor. apply negb_true_iff. apply Ascii.eqb_neq; auto.
Qed.

Lemma all_chars_app P a b : all_chars P (a ++ b) <-> all_chars P a /\ all_chars P b.
Proof. induction a; simpl; tauto. Qed.

Lemma mat_star_any p m q : mat (RStar any_char) p m q <-> all_chars (fun c => c <> newline) m.
Proof.
  split.
  - intro H. remember (RStar any_char) as r. revert Heqr. induction H; intro E; inversion E; subst; simpl; auto.
    apply all_chars_app. split; auto. apply mat_any in H. destruct H as (c & -> & H). simpl; auto.
  - revert p. induction m as [|c m IH]; intros p H; [constructor|]. destruct H as [HC H].
    apply (mat_star_cons any_char p (String c "") m q).
    + apply mat_any. eauto.
    + apply IH; auto.
Qed.

Lemma mat_lit c p m q : mat (lit c) p m q <-> m = String c "".
Proof.
  unfold lit. split.
  - intro H. inversion H as [|f d p0 q0 HF| | | | | | |]; subst. apply Ascii.eqb_eq in HF. subst; auto.
  - intros ->. constructor. apply Ascii.eqb_refl.
Qed.

Lemma mat_rx_pat s k : forall p m q,
  mat (rx_pat s k) p m q <-> exists a b, m = a ++ b /\ glob s a /\ mat k (p ++ a) b q.
Proof.
  induction s as [|c s IH]; intros p m q; simpl.
  - split.
    + intro H. exists "", m. rewrite (append_nil_r p). repeat split; auto. constructor.
    + intros (a & b & -> & HG & H). inversion HG; subst. rewrite append_nil_r in H. auto.
  - split.
    + intro H. inversion H as [| |? ? ? x y ? H1 H2| | | | | |]; subst. apply IH in H2. destruct H2 as (a & b & -> & HG & HK).
      exists (x ++ a), b. rewrite append_assoc. split; auto. rewrite append_assoc in HK. split; auto.
      unfold rx_char in H1. destruct (Ascii.eqb_spec c "*") as [->|N1].
      * apply mat_star_any in H1. constructor; auto.
      * destruct (Ascii.eqb_spec c "?") as [->|N2].
        -- apply mat_any in H1. destruct H1 as (d & -> & Hd). simpl. constructor; auto.
        -- apply mat_lit in H1. subst. simpl. constructor; auto.
    + intros (a & b & -> & HG & HK). unfold rx_char. inversion HG; subst.
      * rewrite append_assoc. constructor.
        -- simpl. apply mat_star_any. auto.
        -- apply IH. exists s2, b. rewrite append_assoc. auto.
      * change (String c0 s0 ++ b) with (String c0 "" ++ (s0 ++ b)). constructor.
        -- simpl. apply mat_any. eauto.
        -- apply IH. exists s0, b. rewrite append_assoc. auto.
      * change (String c s0 ++ b) with (String c "" ++ (s0 ++ b)). constructor.
        -- rewrite (proj2 (Ascii.eqb_neq c "*")), (proj2 (Ascii.eqb_neq c "?")) by auto. apply mat_lit; auto.
        -- apply IH. exists s0, b. rewrite append_assoc. auto.
Qed.

Lemma append_eq_nil a b : a ++ b = "" -> a = "" /\ b = "".
Proof. destruct a; simpl; auto. discriminate. Qed.

Lemma found_anchored s t : found (anchored s) t <-> glob s t.
Proof.
  unfold found, anchored. split.
  - intros (p & m & q & -> & H). inversion H as [| |? ? ? x y ? H1 H2| | | | | |]; subst.
    inversion H1; subst. apply mat_rx_pat in H2. destruct H2 as (a & b & -> & HG & HK).
    inversion HK as [| |? ? ? x y0 ? H3 H4| | | | | |]; subst. inversion H3; subst. inversion H4; subst.
    simpl in *. subst. rewrite !append_nil_r. auto.
  - intro HG. exists "", t, "". rewrite append_nil_r. split; auto.
    apply (mat_seq RBegin _ "" "" t ""); [constructor|]. apply mat_rx_pat.
    exists t, "". rewrite append_nil_r. repeat split; auto.
    apply (mat_seq REnd REps t "" "" ""); constructor.
Qed.

Lemma found_alt a b s : found (RAlt a b) s <-> found a s \/ found b s.
Proof.
  unfold found. split.
  - intros (p & m & q & E & H). inversion H; subst; [left|right]; eauto 6.
  - intros [(p & m & q & E & H)|(p & m & q & E & H)]; exists p, m, q; split; auto.
    + apply mat_alt_l; auto.
    + apply mat_alt_r; auto.
Qed.

(** ** Comma lists *)
Lemma split_items s : comma_items s (split_char "," s).
Proof.
  unfold comma_items. induction s as [|c s (IH1 & IH2 & IH3)].
  - simpl. repeat split; auto; [discriminate|]. repeat constructor.
  - cbn [split_char]. destruct (Ascii.eqb_spec c ",") as [->|N].
    + repeat split; [discriminate|constructor; simpl; auto|].
      destruct (split_char "," s) as [|x l]; [congruence|]. cbn [String.concat append]. f_equal. auto.
    + destruct (split_char "," s) as [|x l] eqn:E; [congruence|].
      inversion IH2; subst. repeat split; [discriminate|constructor; simpl; auto|].
      destruct l; simpl in *; f_equal.
Qed.

Lemma concat_cons x y l : String.concat "," (x :: y :: l) = x ++ "," ++ String.concat "," (y :: l).
Proof. reflexivity. Qed.

Lemma concat_cons_char c x l : String.concat "," (String c x :: l) = String c (String.concat "," (x :: l)).
Proof. destruct l; reflexivity. Qed.

Lemma split_unique s : forall l, comma_items s l -> l = split_char "," s.
Proof.
  induction s as [|c s IH]; intros l (HN & HF & HE).
  - destruct l as [|x l]; [congruence|]. destruct l as [|y l].
    + simpl in HE. subst; auto.
    + rewrite concat_cons in HE. destruct x; discriminate.
  - destruct l as [|x l]; [congruence|]. inversion HF; subst. destruct x as [|d x].
    + destruct l as [|y l]; [discriminate|]. rewrite concat_cons in HE. simpl in HE.
      injection HE; intros E1 E2. subst c. cbn [split_char]. rewrite Ascii.eqb_refl. f_equal.
      apply IH. split; [discriminate|]. split; auto.
    + rewrite concat_cons_char in HE. injection HE; intros E1 E2. subst d. destruct H1 as [HC HX].
      cbn [split_char]. rewrite (proj2 (Ascii.eqb_neq c ",")) by auto.
      rewrite <- (IH (x :: l)); auto. split; [discriminate|]. split; auto.
Qed.

Lemma comma_items_iff s l : comma_items s l <-> l = split_char "," s.
Proof. split; [apply split_unique|]. intros ->. apply split_items. Qed.

Lemma split_pattern_ok P s : all_chars P s -> Forall (all_chars P) (split_char "," s).
Proof.
  induction s as [|c s IH]; simpl; intro H; [repeat constructor|].
  destruct H as [HC H]. specialize (IH H). destruct (Ascii.eqb c ","); [constructor; simpl; auto|].
  destruct (split_char "," s) as [|x l]; [repeat constructor; auto|].
  inversion IH; subst. constructor; simpl; auto.
Qed.

(** ** White space *)
Lemma without_spaces_replace s : replace_all s " " "" = without_spaces s.
Proof.
  rewrite replace_all_one. unfold without_spaces. induction s as [|c s IH]; simpl; auto.
  unfold subst1 at 1. destruct (Ascii.eqb c " "); simpl; rewrite IH; auto.
Qed.

Lemma without_spaces_chars P s : all_chars P s -> all_chars P (without_spaces s).
Proof.
  unfold without_spaces. induction s as [|c s IH]; simpl; auto. intros [H1 H2].
  destruct (negb (Ascii.eqb c " ")); simpl; auto.
Qed.

Definition head_byte (c : ascii) : Prop := (nat_of_ascii c < 128 \/ 192 <= nat_of_ascii c)%nat.
Definition tail_byte (c : ascii) : Prop := (128 <= nat_of_ascii c < 192)%nat.
Lemma white_shape w : In w white_chars -> exists c y, w = String c y /\ head_byte c /\ all_chars tail_byte y.
Proof.
  assert (H : Forall (fun w => exists c y, w = String c y /\ head_byte c /\ all_chars tail_byte y) white_chars).
  { unfold white_chars. cbn [map app seq byte_text string_of_list_ascii]. unfold head_byte, tail_byte.
    repeat (constructor; [eexists; eexists; split; [reflexivity|]; split; [vm_compute; lia|cbn [all_chars]; repeat split; vm_compute; lia]|]). constructor. }
  rewrite Forall_forall in H. apply H.
Qed.
Lemma white_head c x : white (String c x) -> head_byte c.
Proof.
  intro H. inversion H as [|w s HI HS E]. destruct (white_shape w HI) as (d & y & -> & HD & _). cbn in E. injection E as -> _. exact HD.
Qed.
Lemma trim_left_char w x : In w white_chars -> trim_left (w ++ x) = trim_left x.
Proof.
  intro H. assert (HF : Forall (fun w => trim_left (w ++ x) = trim_left x) white_chars).
  { repeat (constructor; [reflexivity|]). constructor. }
  rewrite Forall_forall in HF. auto.
Qed.
Definition starts_white (s : string) : Prop := exists w r, In w white_chars /\ s = w ++ r.
Lemma is_space_iff c : is_space c = true -> In (String c "") white_chars.
Proof. destruct c as [[] [] [] [] [] [] [] []]; try discriminate; intros _; cbn; tauto. Qed.
Lemma is_space2_iff c d : is_space2 c d = true -> In (String c (String d "")) white_chars.
Proof.
  unfold is_space2. rewrite andb_true_iff, orb_true_iff, !Ascii.eqb_eq. intros [-> [->| ->]]; cbn; tauto.
Qed.
Lemma is_space3_iff c d e : is_space3 c d e = true -> In (String c (String d (String e ""))) white_chars.
Proof.
  unfold is_space3. destruct (Ascii.eqb_spec c "225") as [->|_].
  - rewrite andb_true_iff, !Ascii.eqb_eq. intros [-> ->]. cbn. tauto.
  - destruct (Ascii.eqb_spec c "226") as [->|_].
    + destruct (Ascii.eqb_spec d "128") as [->|_].
      * cbn [existsb]. rewrite !orb_true_iff, !Ascii.eqb_eq. intro H. repeat (destruct H as [->|H]; [cbn; tauto|]). discriminate.
      * rewrite andb_true_iff, !Ascii.eqb_eq. intros [-> ->]. cbn. tauto.
    + rewrite !andb_true_iff, !Ascii.eqb_eq. intros [[-> ->] ->]. cbn. tauto.
Qed.
Lemma trim_left_S c s1 : trim_left (String c s1) =
  if is_space c then trim_left s1
  else
    match s1 with
    | EmptyString => String c s1
    | String d s2 =>
      if is_space2 c d then trim_left s2
      else match s2 with EmptyString => String c s1 | String e s3 => if is_space3 c d e then trim_left s3 else String c s1 end
    end.
Proof. reflexivity. Qed.
Lemma trim_left_cases s : starts_white s \/ trim_left s = s /\ ~ starts_white s.
Proof.
  assert (HN : forall s, trim_left s = s -> ~ starts_white s).
  { clear. intros s E (w & r & HI & ->). rewrite trim_left_char in E by auto. destruct (white_shape w HI) as (c & y & -> & _).
    assert (HL : forall x, (String.length (trim_left x) <= String.length x)%nat).
    { clear. intro x. assert (H : forall n x, (String.length x <= n)%nat -> (String.length (trim_left x) <= String.length x)%nat).
      { clear. induction n as [|n IH]; intros s HL; (destruct s as [|c s1]; [cbn; lia|]); cbn [String.length] in HL; [lia|].
        rewrite trim_left_S. destruct (is_space c); [specialize (IH s1 ltac:(lia)); cbn [String.length]; lia|]. destruct s1 as [|d s2]; [lia|]. cbn [String.length] in *.
        destruct (is_space2 c d); [specialize (IH s2 ltac:(lia)); lia|]. destruct s2 as [|e s3]; [cbn; lia|]. cbn [String.length] in *.
        destruct (is_space3 c d e); [specialize (IH s3 ltac:(lia)); lia|cbn [String.length]; lia]. }
      apply (H _ x (le_n _)). }
    specialize (HL r). rewrite E in HL. cbn in HL. rewrite length_append in HL. lia. }
  destruct s as [|c s1]; [right; split; [reflexivity|apply HN; reflexivity]|].
  destruct (is_space c) eqn:E1; [left; exists (String c ""), s1; auto using is_space_iff|].
  destruct s1 as [|d s2]; [right; assert (E : trim_left (String c "") = String c "") by (cbn; rewrite E1; reflexivity); split; [exact E|apply HN; exact E]|].
  destruct (is_space2 c d) eqn:E2; [left; exists (String c (String d "")), s2; auto using is_space2_iff|].
  destruct s2 as [|e s3]; [right; assert (E : trim_left (String c (String d "")) = String c (String d "")) by (cbn [trim_left]; rewrite E1, E2; reflexivity); split; [exact E|apply HN; exact E]|].
  destruct (is_space3 c d e) eqn:E3; [left; exists (String c (String d (String e ""))), s3; auto using is_space3_iff|].
  right. assert (E : trim_left (String c (String d (String e s3))) = String c (String d (String e s3))) by (cbn [trim_left]; rewrite E1, E2, E3; reflexivity).
  split; [exact E|apply HN; exact E].
Qed.
Lemma trim_left_spec s : exists a, s = a ++ trim_left s /\ white a /\ ~ starts_white (trim_left s).
Proof.
  remember (String.length s) as n eqn:EN. revert s EN. induction n as [n IH] using (well_founded_induction lt_wf). intros s EN.
  destruct (trim_left_cases s) as [(w & r & HI & ->)|[E HN]].
  - rewrite trim_left_char by auto. pose proof (white_shape w HI) as (c & y & EW & _).
    destruct (IH (String.length r)) with (s := r) as (a & H1 & H2 & H3); [subst n; rewrite length_append, EW; cbn; lia|reflexivity|].
    exists (w ++ a). split; [rewrite append_assoc; congruence|]. split; [constructor; auto|exact H3].
  - exists "". rewrite E. split; [reflexivity|]. split; [constructor|exact HN].
Qed.
Lemma trim_left_white a x : white a -> trim_left (a ++ x) = trim_left x.
Proof. induction 1 as [|w a HI HA IH]; [reflexivity|]. rewrite append_assoc, trim_left_char; auto. Qed.
Lemma trim_left_empty s : trim_left s = "" <-> white s.
Proof.
  split; intro H.
  - destruct (trim_left_spec s) as (a & E & HA & _). rewrite H, append_nil_r in E. congruence.
  - rewrite <- (append_nil_r s), trim_left_white by auto. reflexivity.
Qed.
Lemma trim_left_id t : ~ starts_white t -> trim_left t = t.
Proof. intro H. destruct (trim_left_cases t) as [HS|[E _]]; [contradiction|exact E]. Qed.
Lemma append_cases (a b c d : string) : a ++ b = c ++ d -> (exists u, c = a ++ u /\ b = u ++ d) \/ (exists x u, a = c ++ String x u /\ d = String x u ++ b).
Proof.
  revert c. induction a as [|x a IH]; intros c E.
  - left. exists c. auto.
  - destruct c as [|y c]; [right; exists x, a; auto|]. cbn in E. injection E as -> E. destruct (IH c E) as [(u & -> & ->)|(z & u & -> & ->)].
    + left. exists u. auto.
    + right. exists z, u. auto.
Qed.
(** white space after a text does not complete a character *)
Lemma white_cut w s c t b : In w white_chars -> white b -> w ++ s = String c t ++ b -> exists u, String c t = w ++ u /\ s = u ++ b.
Proof.
  intros HI HB E. destruct (append_cases _ _ _ _ E) as [H|(x & u & EW & EB)]; [exact H|].
  destruct (white_shape w HI) as (d & y & -> & _ & HT). rewrite EB in HB. apply white_head in HB. cbn in EW. injection EW as _ ->.
  apply all_chars_app in HT. destruct HT as [_ [HT _]]. unfold head_byte, tail_byte in *. lia.
Qed.
Lemma white_front t b : white b -> white (t ++ b) -> white t.
Proof.
  intros HB. remember (String.length t) as n eqn:EN. revert t EN. induction n as [n IH] using (well_founded_induction lt_wf). intros t EN H.
  destruct t as [|c t]; [constructor|]. inversion H as [E|w s HI HS E]. destruct (white_cut w s c t b HI HB E) as (u & E1 & E2). rewrite E1. constructor; auto.
  apply (IH (String.length u)); auto; [|congruence]. subst n. rewrite E1, length_append. destruct (white_shape w HI) as (x & y & -> & _). cbn. lia.
Qed.
Lemma starts_front c t b : white b -> starts_white (String c t ++ b) -> starts_white (String c t).
Proof. intros HB (w & s & HI & E). destruct (white_cut w s c t b HI HB (eq_sym E)) as (u & E1 & _). exists w, u. auto. Qed.
Lemma trim_right_S c s : trim_right (String c s) = match trim_left (String c s) with EmptyString => "" | _ => String c (trim_right s) end.
Proof. reflexivity. Qed.
Lemma trim_right_white b : white b -> trim_right b = "".
Proof. destruct b as [|c b]; [reflexivity|]. intro H. apply trim_left_empty in H. rewrite trim_right_S, H. reflexivity. Qed.
Lemma trim_right_solid c s : ~ white (String c s) -> trim_right (String c s) = String c (trim_right s).
Proof. intro H. rewrite <- trim_left_empty in H. rewrite trim_right_S. destruct (trim_left (String c s)); congruence. Qed.
Lemma white_dec s : white s \/ ~ white s.
Proof. rewrite <- trim_left_empty. destruct (trim_left s); [left; reflexivity|right; discriminate]. Qed.
Lemma trim_right_spec s : exists b, s = trim_right s ++ b /\ white b /\ forall w t', In w white_chars -> trim_right s <> t' ++ w.
Proof.
  assert (HE : forall w t', In w white_chars -> "" <> t' ++ w).
  { intros w t' HI E. destruct (white_shape w HI) as (c & y & -> & _). destruct t'; discriminate. }
  induction s as [|c s IH].
  - exists "". split; [reflexivity|]. split; [constructor|exact HE].
  - destruct (white_dec (String c s)) as [HW|HW].
    + exists (String c s). rewrite trim_right_white by auto. split; [reflexivity|]. split; [exact HW|exact HE].
    + destruct IH as (b & E & HB & HN). rewrite trim_right_solid by auto. exists b. split; [cbn; congruence|]. split; [exact HB|].
      intros w [|x t'] HI EQ.
      * apply HW. cbn in EQ. rewrite E. change (String c (trim_right s ++ b)) with (String c (trim_right s) ++ b). rewrite EQ. constructor; auto.
      * cbn in EQ. injection EQ as _ EQ. exact (HN w t' HI EQ).
Qed.
Lemma trim_space_trimmed s : trimmed s (trim_space s).
Proof.
  unfold trim_space. destruct (trim_left_spec s) as (a & H1 & H2 & H3). destruct (trim_right_spec (trim_left s)) as (b & H4 & H5 & H6).
  exists a, b. split; [rewrite <- H4; exact H1|]. split; [exact H2|]. split; [exact H5|]. split; [|exact H6].
  intros w t' HI E. apply H3. exists w, (t' ++ b). split; auto. rewrite H4, E, append_assoc. reflexivity.
Qed.
Lemma trim_right_app t b : white b -> trim_right (t ++ b) = trim_right t.
Proof.
  intro HB. induction t as [|c t IH]; [apply trim_right_white; auto|]. destruct (white_dec (String c t)) as [HW|HW].
  - rewrite (trim_right_white (String c t)) by auto. apply trim_right_white. clear - HB HW. induction HW as [|w s HI HS IH]; [exact HB|]. rewrite append_assoc. constructor; auto.
  - rewrite (trim_right_solid c t) by auto. cbn [append]. rewrite trim_right_solid; [rewrite IH; reflexivity|]. intro H. apply HW. apply (white_front _ b HB). exact H.
Qed.
Lemma white_last b : white b -> b = "" \/ exists b' w, In w white_chars /\ b = b' ++ w.
Proof.
  induction 1 as [|w s HI HS IH]; [left; reflexivity|]. right. destruct IH as [->|(b' & v & HV & ->)].
  - exists "", w. rewrite append_nil_r. auto.
  - exists (w ++ b'), v. rewrite append_assoc. auto.
Qed.
Lemma trim_right_id t : (forall w t', In w white_chars -> t <> t' ++ w) -> trim_right t = t.
Proof.
  intro H. destruct (trim_right_spec t) as (b & E & HB & _). destruct (white_last b HB) as [->|(b' & w & HI & ->)].
  - rewrite append_nil_r in E. congruence.
  - rewrite <- append_assoc in E. destruct (H w _ HI E).
Qed.

Lemma trimmed_iff s t : trimmed s t <-> t = trim_space s.
Proof.
  split; [|intros ->; apply trim_space_trimmed].
  intros (a & b & -> & HA & HB & HF & HL). unfold trim_space. rewrite trim_left_white by auto.
  destruct t as [|c t].
  - cbn [append]. apply trim_left_empty in HB. rewrite HB. reflexivity.
  - rewrite trim_left_id.
    + rewrite trim_right_app by auto. symmetry. apply trim_right_id; auto.
    + intro H. apply (starts_front c t b HB) in H. destruct H as (w & r & HI & E). exact (HF w r HI E).
Qed.

Lemma trim_space_chars P s : all_chars P s -> all_chars P (trim_space s).
Proof.
  intro H. destruct (trim_space_trimmed s) as (a & b & E & _). rewrite E in H.
  apply all_chars_app in H. destruct H as [_ H]. apply all_chars_app in H. tauto.
Qed.

(** ** Lists of alternatives *)
Fixpoint alts (l : list string) : rx :=
  match l with
  | [] => REps
  | [x] => anchored (trim_space x)
  | x :: l' => RAlt (anchored (trim_space x)) (alts l')
  end.

Lemma regex_items_text l : l <> [] -> Forall pattern_ok l -> alt_text (regex_items l) (alts l).
Proof.
  induction l as [|x l IH]; intros HN HF; [congruence|]. inversion HF as [|? ? Hx Hl]; subst. cbn [regex_items].
  destruct l as [|y l].
  - cbn [alts regex_items]. rewrite append_nil_r. constructor. apply anchored_text. apply trim_space_chars; auto.
  - change (alts (x :: y :: l)) with (RAlt (anchored (trim_space x)) (alts (y :: l))).
    replace ((("^" ++ escape_pattern (trim_space x) ++ "$") ++ "|") ++ regex_items (y :: l))
      with (("^" ++ escape_pattern (trim_space x) ++ "$") ++ "|" ++ regex_items (y :: l)) by (rewrite !append_assoc; auto).
    constructor; [apply anchored_text; apply trim_space_chars; auto|]. apply IH; auto. discriminate.
Qed.

Lemma found_alts l t : l <> [] -> (found (alts l) t <-> exists x, In x l /\ glob (trim_space x) t).
Proof.
  induction l as [|x l IH]; intro HN; [congruence|]. destruct l as [|y l].
  - cbn [alts]. rewrite found_anchored. split.
    + intro H. exists x. simpl; auto.
    + intros (z & [->|[]] & H). auto.
  - change (alts (x :: y :: l)) with (RAlt (anchored (trim_space x)) (alts (y :: l))).
    rewrite found_alt, found_anchored, IH by discriminate. split.
    + intros [H|(z & HZ & H)]; [exists x|exists z]; simpl; auto.
    + intros (z & [->|HZ] & H); [left; auto|right; eauto].
Qed.

Lemma list_accepts_iff s t : list_accepts s t <-> exists x, In x (split_char "," s) /\ glob (trim_space x) t.
Proof.
  unfold list_accepts. split.
  - intros (items & item & u & HI & HN & HT & HG). apply comma_items_iff in HI. apply trimmed_iff in HT. subst. eauto.
  - intros (x & HI & HG). exists (split_char "," s), x, (trim_space x).
    repeat split; auto using trim_space_trimmed; apply split_items.
Qed.

Lemma split_nonempty s : split_char "," s <> [].
Proof. apply (split_items s). Qed.

Section WithLib.
Variable L : Lib.
Hypothesis HRE : RegexSpec L.

(** resource names, and operations other than the keywords *)
Lemma wildcards_regex s : pattern_ok s ->
  exists re, re_compile L (convert_string_to_regex s "WithWildcards") = Some re /\
    forall t, ascii_text t -> (re_match L re t = true <-> list_accepts s t).
Proof.
  intro HP. unfold convert_string_to_regex. simpl is_any. cbv iota.
  destruct (HRE ("(" ++ regex_items (split_char "," s) ++ ")") (alts (split_char "," s))) as (re & E & HM).
  { apply pt_group. apply regex_items_text; [apply split_nonempty|]. apply split_pattern_ok; auto. }
  exists re. split; auto. intros t HT. rewrite (HM t HT), found_alts by apply split_nonempty.
  symmetry. apply list_accepts_iff.
Qed.

(** a single name item *)
Lemma name_regex s : pattern_ok s ->
  exists re, re_compile L ("^" ++ escape_pattern (replace_all s " " "") ++ "$") = Some re /\
    forall t, ascii_text t -> (re_match L re t = true <-> glob (without_spaces s) t).
Proof.
  intro HP. rewrite without_spaces_replace.
  destruct (HRE _ (anchored (without_spaces s)) (pt_alt _ _ (al_one _ _ (anchored_text _ (without_spaces_chars _ _ HP))))) as (re & E & HM).
  exists re. split; auto. intros t HT. rewrite (HM t HT). apply found_anchored.
Qed.

(** keyword operations *)
Fixpoint words (l : list string) : string :=
  match l with [] => "" | [x] => "^" ++ x ++ "$" | x :: l' => "^" ++ x ++ "$|" ++ words l' end.
Definition exact (s : string) : rx := RSeq RBegin (fold_right (fun c r => RSeq (lit c) r) (RSeq REnd REps) (list_ascii_of_string s)).
Fixpoint exacts (l : list string) : rx :=
  match l with [] => REps | [x] => exact x | x :: l' => RAlt (exact x) (exacts l') end.

Lemma exact_text s : all_chars plain_char s -> seq_text ("^" ++ s ++ "$") (exact s).
Proof.
  intro H. apply (st_cons "^"); [constructor|].
  induction s as [|c s IH]; simpl.
  - apply (st_cons "$" _ ""); constructor.
  - destruct H as [HC H]. apply (st_cons (String c "") _ (s ++ "$")); [constructor; auto|]. apply IH; auto.
Qed.

Lemma found_exact s t : found (exact s) t <-> t = s.
Proof.
  assert (HF : forall p m q, mat (fold_right (fun c r => RSeq (lit c) r) (RSeq REnd REps) (list_ascii_of_string s)) p m q
               <-> m = s /\ q = "").
  { induction s as [|c s IH]; intros p m q; simpl.
    - split.
      + intro H. inversion H as [| |? ? ? x y ? H1 H2| | | | | |]; subst. inversion H1; subst. inversion H2; subst.
        simpl in *. auto.
      + intros [-> ->]. apply (mat_seq REnd REps p "" "" ""); constructor.
    - split.
      + intro H. inversion H as [| |? ? ? x y ? H1 H2| | | | | |]; subst. apply mat_lit in H1. apply IH in H2.
        destruct H2; subst. auto.
      + intros [-> ->]. apply (mat_seq (lit c) _ p (String c "") s ""); [apply mat_lit; auto|]. apply IH; auto. }
  unfold found, exact. split.
  - intros (p & m & q & -> & H). inversion H as [| |? ? ? x y ? H1 H2| | | | | |]; subst. inversion H1; subst.
    apply HF in H2. destruct H2; subst. simpl. rewrite append_nil_r. auto.
  - intros ->. exists "", s, "". rewrite append_nil_r. split; auto.
    apply (mat_seq RBegin _ "" "" s ""); [constructor|]. apply HF; auto.
Qed.

Lemma words_text l : l <> [] -> Forall (all_chars plain_char) l -> alt_text (words l) (exacts l).
Proof.
  induction l as [|x l IH]; intros HN HF; [congruence|]. inversion HF; subst. destruct l as [|y l].
  - constructor. apply exact_text; auto.
  - change (words (x :: y :: l)) with ("^" ++ x ++ "$|" ++ words (y :: l)).
    change (exacts (x :: y :: l)) with (RAlt (exact x) (exacts (y :: l))).
    replace ("^" ++ x ++ "$|" ++ words (y :: l)) with (("^" ++ x ++ "$") ++ "|" ++ words (y :: l)).
    + constructor; [apply exact_text; auto|]. apply IH; auto. discriminate.
    + rewrite !append_assoc. auto.
Qed.

Lemma found_exacts l t : l <> [] -> (found (exacts l) t <-> In t l).
Proof.
  induction l as [|x l IH]; intro HN; [congruence|]. destruct l as [|y l].
  - cbn [exacts]. rewrite found_exact. simpl. intuition.
  - change (exacts (x :: y :: l)) with (RAlt (exact x) (exacts (y :: l))).
    rewrite found_alt, found_exact, IH by discriminate. simpl. intuition.
Qed.

Lemma words_regex l : l <> [] -> Forall (all_chars plain_char) l ->
  (exists re, re_compile L (words l) = Some re /\ forall t, ascii_text t -> (re_match L re t = true <-> In t l)) /\
  (exists re, re_compile L ("(" ++ words l ++ ")") = Some re /\ forall t, ascii_text t -> (re_match L re t = true <-> In t l)).
Proof.
  intros HN HF. split.
  - destruct (HRE _ _ (pt_alt _ _ (words_text l HN HF))) as (re & E & HM).
    exists re. split; auto. intros t HT. rewrite (HM t HT). apply found_exacts; auto.
  - destruct (HRE _ _ (pt_group _ _ (words_text l HN HF))) as (re & E & HM).
    exists re. split; auto. intros t HT. rewrite (HM t HT). apply found_exacts; auto.
Qed.

Definition plain_charb (c : ascii) : bool :=
  negb (existsb (Ascii.eqb c) metachars) && (nat_of_ascii c <? 128)%nat.
Fixpoint plainb (s : string) : bool :=
  match s with EmptyString => true | String c s' => plain_charb c && plainb s' end.
Lemma plainb_ok s : plainb s = true -> all_chars plain_char s.
Proof.
  induction s as [|c s IH]; simpl; auto. rewrite andb_true_iff. intros [H HS]. split; auto.
  unfold plain_charb in H. rewrite andb_true_iff, negb_true_iff, Nat.ltb_lt in H. destruct H as [H HN]. split; auto.
  intro HI. assert (existsb (Ascii.eqb c) metachars = true); [|congruence].
  apply existsb_exists. exists c. split; auto. apply Ascii.eqb_refl.
Qed.

Lemma all_plain l : forallb plainb l = true -> Forall (all_chars plain_char) l.
Proof. rewrite forallb_forall, Forall_forall. intros H x Hx. apply plainb_ok; auto. Qed.

Theorem operation_regex op : pattern_ok op ->
  exists re, re_compile L (convert_operation op) = Some re /\
    forall t, ascii_text t -> (re_match L re t = true <-> operation_accepts op t).
Proof.
  intro HP. unfold convert_operation, operation_accepts.
  destruct (is_any op ["*"]) eqn:E1.
  { apply is_any_iff in E1. destruct E1 as [<-|[]].
    destruct (HRE ".*" (RSeq (RStar any_char) REps)) as (re & E & HM).
    { apply pt_alt, al_one. apply (st_cons ".*" _ ""); constructor. }
    exists re. split; auto. intros t HT. rewrite (HM t HT). split; [auto|]. intros _.
    exists "", "", t. split; auto. apply (mat_seq _ _ "" "" "" t); constructor. }
  destruct (is_any op ["write"; "WRITE"]) eqn:E2.
  { apply is_any_iff in E2.
    destruct (words_regex ["POST"; "PUT"; "DELETE"]) as [_ (re & E & HM)];
      [discriminate|apply all_plain; reflexivity|].
    exists re. split; auto. intros t HT. rewrite (HM t HT).
    split; [intro H; right; left; auto|]. intros [->|[[_ H]|[[H _]|[H _]]]]; auto.
    - simpl in E2. intuition discriminate.
    - simpl in E2, H. intuition congruence.
    - exfalso. apply H. simpl in E2 |- *. intuition. }
  destruct (is_any op ["read"; "READ"]) eqn:E3.
  { apply is_any_iff in E3.
    destruct (words_regex ["GET"; "HEAD"; "OPTIONS"; "TRACE"; "read"; "READ"]) as [_ (re & E & HM)];
      [discriminate|apply all_plain; reflexivity|].
    exists re. split; auto. intros t HT. rewrite (HM t HT).
    split; [intro H; right; right; left; auto|]. intros [->|[[H _]|[[_ H]|[H _]]]]; auto.
    - simpl in E3. intuition discriminate.
    - simpl in E3, H. intuition congruence.
    - exfalso. apply H. simpl in E3 |- *. intuition. }
  destruct (wildcards_regex op HP) as (re & E & HM). exists re. split; auto. intros t HT. rewrite (HM t HT).
  apply is_any_false in E1, E2, E3. split.
  - intro H. right. right. right. split; auto. simpl in E1, E2, E3 |- *. tauto.
  - intros [->|[[H _]|[[H _]|[_ H]]]]; auto; exfalso; [apply E1; simpl; auto|tauto|tauto].
Qed.

(** membership lists *)
Lemma plain_no_bracket c : plain_char c -> c <> "["%char /\ c <> "]"%char.
Proof. intros [H _]. split; intros ->; apply H; simpl; tauto. Qed.

Lemma cmap_id f s : all_chars (fun c => f c = String c "") s -> cmap f s = s.
Proof. induction s; simpl; auto. intros [-> H]. rewrite IHs; auto. Qed.

Lemma concat_chars P sep l : Forall (all_chars P) l -> all_chars P sep -> all_chars P (String.concat sep l).
Proof.
  intros HF HS. induction HF as [|x l Hx Hl IH]; simpl; auto. destruct l; auto.
  rewrite all_chars_app. split; auto. rewrite all_chars_app. auto.
Qed.

Lemma all_chars_impl (P Q : ascii -> Prop) s : (forall c, P c -> Q c) -> all_chars P s -> all_chars Q s.
Proof. intro H. induction s; simpl; auto. intuition. Qed.

Lemma words_concat l : l <> [] -> Forall (all_chars (fun c => c <> ","%char)) l ->
  "^" ++ cmap (subst1 "," "$|^") (String.concat "," l) ++ "$" = words l.
Proof.
  intros HN HF. induction HF as [|x l Hx Hl IH]; [congruence|].
  assert (HX : cmap (subst1 "," "$|^") x = x).
  { apply cmap_id. eapply all_chars_impl; [|exact Hx]. simpl. intros c HC. unfold subst1.
    rewrite (proj2 (Ascii.eqb_neq c ",")); auto. }
  destruct l as [|y l].
  - simpl String.concat. rewrite HX. auto.
  - rewrite concat_cons, !cmap_app, HX. change (words (x :: y :: l)) with ("^" ++ x ++ "$|" ++ words (y :: l)).
    rewrite <- IH by discriminate. rewrite !append_assoc. auto.
Qed.

Lemma list_to_alternatives_words l : l <> [] -> Forall plain_item l -> list_to_alternatives (list_value l) = words l.
Proof.
  intros HN HF. unfold list_to_alternatives, list_value. rewrite !replace_all_one.
  rewrite !cmap_app.
  assert (HB : all_chars (fun c => c <> "["%char /\ c <> "]"%char) (String.concat "," l)).
  { apply concat_chars; [|simpl; repeat split; discriminate].
    eapply Forall_impl; [|exact HF]. intros a Ha. eapply all_chars_impl; [|exact Ha]. simpl.
    intros c [HC _]. apply plain_no_bracket; auto. }
  rewrite (cmap_id (subst1 "[" "") (String.concat "," l)).
  2:{ eapply all_chars_impl; [|exact HB]. simpl. intros c [H _]. unfold subst1. rewrite (proj2 (Ascii.eqb_neq c "[")); auto. }
  rewrite (cmap_id (subst1 "]" "") (String.concat "," l)).
  2:{ eapply all_chars_impl; [|exact HB]. simpl. intros c [_ H]. unfold subst1. rewrite (proj2 (Ascii.eqb_neq c "]")); auto. }
  simpl. rewrite append_nil_r. apply words_concat; auto.
  eapply Forall_impl; [|exact HF]. intros a Ha. eapply all_chars_impl; [|exact Ha]. simpl. tauto.
Qed.

Theorem membership_regex l : l <> [] -> Forall plain_item l ->
  exists re, re_compile L (list_to_alternatives (list_value l)) = Some re /\
    forall t, ascii_text t -> (re_match L re t = true <-> In t l).
Proof.
  intros HN HF. rewrite list_to_alternatives_words by auto. apply words_regex; auto.
  eapply Forall_impl; [|exact HF]. intros a Ha. eapply all_chars_impl; [|exact Ha]. simpl. tauto.
Qed.

End WithLib.

(** no method is both read and write *)
Lemma read_write_disjoint method : operation_accepts "read" method -> operation_accepts "write" method -> False.
Proof.
  intros HR HW.
  assert (R : In method ["GET"; "HEAD"; "OPTIONS"; "TRACE"; "read"; "READ"]).
  { destruct HR as [H|[(H & _)|[(_ & H)|(H & _)]]]; auto; exfalso.
    - discriminate.
    - simpl in H. intuition discriminate.
    - apply H; simpl; auto 10. }
  assert (W : In method ["POST"; "PUT"; "DELETE"]).
  { destruct HW as [H|[(_ & H)|[(H & _)|(H & _)]]]; auto; exfalso.
    - discriminate.
    - simpl in H. intuition discriminate.
    - apply H; simpl; auto 10. }
  simpl in R, W. intuition congruence.
Qed.
