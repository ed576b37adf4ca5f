(** Patterns on UTF-8 texts. *)
From Coq Require Import List String Ascii Bool Arith ZArith Lia.
From Verif Require Import Base GoStr GoStr_facts GoFloat Types Json StrUtils Validate Prepare Check Spec_Match Spec_Regex Spec_Glob Glob_proofs Match_proofs Names_proofs Spec_Utf8.
Import ListNotations.
Open Scope string_scope.

(** ** UTF-8 *)
Definition low (c : ascii) : Prop := nat_of_ascii c < 128.
Definition high (c : ascii) : Prop := 128 <= nat_of_ascii c.

Lemma fits_high ranges s : forallb (fun range => (128 <=? fst range)%nat) ranges = true -> fits ranges s = true -> all_chars high s.
Proof.
  revert s. induction ranges as [|x ranges IH]; intros [|c s] HR H; cbn [fits forallb all_chars] in *; try discriminate; auto.
  apply andb_prop in HR. destruct HR as [H1 H2]. apply andb_prop in H. destruct H as [H3 H4]. split; auto.
  unfold within in H3. apply andb_prop in H3. destruct H3 as [H3 _]. apply Nat.leb_le in H1, H3. unfold high. lia.
Qed.
Lemma fits_one range m : fits [range] m = true <-> exists c, m = String c "" /\ fst range <= nat_of_ascii c /\ nat_of_ascii c <= snd range.
Proof.
  destruct m as [|c [|d m]]; cbn [fits].
  - split; [discriminate|intros (c & E & _); discriminate].
  - rewrite andb_true_r. unfold within. rewrite andb_true_iff, !Nat.leb_le. split; [eauto|]. intros (x & E & H). injection E as ->. exact H.
  - rewrite andb_false_r. split; [discriminate|intros (x & E & _); discriminate].
Qed.
Lemma char_cases ch : utf8_char ch -> (exists c, ch = String c "" /\ low c) \/ (all_chars high ch /\ ch <> "").
Proof.
  intros (ranges & [<-|HI] & HF).
  - left. apply fits_one in HF. destruct HF as (c & -> & _ & HF). exists c. split; auto. cbn [snd] in HF. unfold low. lia.
  - right. split.
    + apply (fits_high ranges); auto. assert (HB : forallb (forallb (fun range => (128 <=? fst range)%nat)) several_bytes = true) by reflexivity.
      rewrite forallb_forall in HB. apply HB. exact HI.
    + intros ->. assert (HB : forallb (fun r : list (nat * nat) => negb (fits r "")) several_bytes = true) by reflexivity.
      rewrite forallb_forall in HB. specialize (HB ranges HI). rewrite HF in HB. discriminate.
Qed.
Lemma low_char c : low c -> utf8_char (String c "").
Proof.
  intro H. exists [(0, 127)]. split; [left; reflexivity|]. apply fits_one. exists c. cbn [fst snd]. unfold low in H. split; [reflexivity|lia].
Qed.
Lemma utf8_one ch : utf8_char ch -> utf8 ch.
Proof. intro H. rewrite <- (append_nil_r ch). constructor; auto. constructor. Qed.
Lemma utf8_app a b : utf8 a -> utf8 b -> utf8 (a ++ b).
Proof. intros HA HB. induction HA; cbn; auto. rewrite append_assoc. constructor; auto. Qed.
Lemma ascii_utf8 s : ascii_text s -> utf8 s.
Proof.
  induction s as [|c s IH]; intro H; [constructor|]. destruct H as [HC H]. change (String c s) with (String c "" ++ s). constructor; auto. apply low_char. exact HC.
Qed.

Lemma high_prefix ch : forall s a c b, all_chars high ch -> low c -> ch ++ s = a ++ String c b -> exists a', a = ch ++ a' /\ s = a' ++ String c b.
Proof.
  induction ch as [|x ch IH]; intros s a c b HH HC E; cbn in *.
  - exists a. auto.
  - destruct HH as [HX HH]. destruct a as [|y a]; cbn in E.
    + injection E as <- _. unfold low, high in *. lia.
    + injection E as <- E. destruct (IH s a c b HH HC E) as (a' & -> & ->). exists a'. auto.
Qed.
Lemma utf8_cut s : utf8 s -> forall a c b, low c -> s = a ++ String c b -> utf8 a /\ utf8 b.
Proof.
  induction 1 as [|ch s HC HS IH]; intros a c b HL E; [destruct a; discriminate|].
  destruct (char_cases ch HC) as [(x & -> & HX)|[HH HN]].
  - destruct a as [|y a]; cbn in E.
    + injection E as <- <-. split; auto. constructor.
    + injection E as <- E. destruct (IH a c b HL E) as [HA HB]. split; auto. change (String x a) with (String x "" ++ a). constructor; auto.
  - destruct (high_prefix ch s a c b HH HL E) as (a' & -> & ->). destruct (IH a' c b HL eq_refl) as [HA HB]. split; auto. constructor; auto.
Qed.

Lemma cmap_high f ch : (forall c, high c -> f c = String c "") -> all_chars high ch -> cmap f ch = ch.
Proof. intros HF H. apply cmap_id. eapply all_chars_impl; [|exact H]. auto. Qed.
Lemma utf8_cmap f s : (forall c, low c -> ascii_text (f c)) -> (forall c, high c -> f c = String c "") -> utf8 s -> utf8 (cmap f s).
Proof.
  intros HL HH. induction 1 as [|ch s HC HS IH]; [constructor|]. rewrite cmap_app. apply utf8_app; auto.
  destruct (char_cases ch HC) as [(x & -> & HX)|[HX HN]].
  - cbn. rewrite append_nil_r. apply ascii_utf8. auto.
  - rewrite cmap_high; auto. apply utf8_one. exact HC.
Qed.
Lemma utf8_escaped s : utf8 s -> utf8 (escape_pattern s).
Proof.
  rewrite escape_pattern_cmap. apply utf8_cmap.
  - intros c HC. unfold esc. repeat (match goal with |- context [if ?b then _ else _] => destruct b end); cbn; unfold low in HC; repeat split; auto; lia.
  - intros c HC. unfold esc, high in *.
    repeat (match goal with |- context [Ascii.eqb c ?x] => destruct (Ascii.eqb_spec c x) as [->|?]; [cbn in HC; exfalso; lia|] end). reflexivity.
Qed.
Lemma utf8_without_spaces s : utf8 s -> utf8 (without_spaces s).
Proof.
  rewrite <- without_spaces_replace, replace_all_one. apply utf8_cmap; intros c HC; unfold subst1; destruct (Ascii.eqb_spec c " "); cbn; auto.
  subst c. cbn in HC. unfold high in HC. cbn in HC. lia.
Qed.
Lemma utf8_items s : utf8 s -> Forall utf8 (split_char "," s).
Proof.
  destruct (split_items s) as (_ & _ & E). revert E. generalize (split_char "," s) as l. intros l E H. revert s E H. induction l as [|x l IH]; intros s E H; [constructor|].
  destruct l as [|y l]; [cbn in E; subst; auto|]. rewrite concat_cons in E. destruct (utf8_cut s H x "," (String.concat "," (y :: l))) as [HX HL]; [unfold low; cbn; lia|exact E|].
  constructor; auto. eapply IH; eauto.
Qed.
(** characters are recognised from their first byte, which no later byte looks like *)
Definition char_ranges : list (list (nat * nat)) := [(0, 127)] :: several_bytes.
Definition range_shape (ranges : list (nat * nat)) : bool :=
  match ranges with
  | first :: rest => ((snd first <? 128) || (192 <=? fst first))%nat && forallb (fun range => ((128 <=? fst range) && (snd range <? 192))%nat) rest
  | [] => false
  end.
Lemma fits_tail ranges : forall s, forallb (fun range => ((128 <=? fst range) && (snd range <? 192))%nat) ranges = true -> fits ranges s = true -> all_chars tail_byte s.
Proof.
  induction ranges as [|x ranges IH]; intros [|c s] HR H; cbn [fits forallb all_chars] in *; try discriminate; auto.
  apply andb_prop in HR. destruct HR as [H1 H2]. apply andb_prop in H. destruct H as [H3 H4]. split; auto.
  unfold within in H3. apply andb_prop in H1, H3. destruct H1 as [A1 A2]. destruct H3 as [B1 B2].
  apply Nat.leb_le in A1, B1, B2. apply Nat.ltb_lt in A2. unfold tail_byte. lia.
Qed.
Lemma fits_length ranges : forall s, fits ranges s = true -> String.length s = List.length ranges.
Proof.
  induction ranges as [|x ranges IH]; intros [|c s] H; cbn in *; try discriminate; auto. apply andb_prop in H. destruct H as [_ H]. f_equal. auto.
Qed.
Lemma char_shape ch : utf8_char ch -> exists c y, ch = String c y /\ head_byte c /\ all_chars tail_byte y.
Proof.
  intros (ranges & HI & HF). assert (HS : forallb range_shape char_ranges = true) by reflexivity. rewrite forallb_forall in HS. specialize (HS ranges HI).
  destruct ranges as [|x ranges]; [discriminate|]. cbn [range_shape] in HS. apply andb_prop in HS. destruct HS as [HX HR].
  destruct ch as [|c y]; [discriminate|]. cbn [fits] in HF. apply andb_prop in HF. destruct HF as [HW HF]. exists c, y. split; [reflexivity|]. split; [|eapply fits_tail; eauto].
  unfold within in HW. apply andb_prop in HW. destruct HW as [W1 W2]. apply Nat.leb_le in W1, W2. apply orb_prop in HX. unfold head_byte.
  destruct HX as [HX|HX]; [apply Nat.ltb_lt in HX|apply Nat.leb_le in HX]; lia.
Qed.
Lemma first_range r1 r2 c : In r1 char_ranges -> In r2 char_ranges -> within (hd (0, 0) r1) c = true -> within (hd (0, 0) r2) c = true -> r1 = r2.
Proof.
  unfold char_ranges, several_bytes, within. cbn [In]. intros H1 H2. rewrite !andb_true_iff, !Nat.leb_le.
  repeat (destruct H1 as [<-|H1]; [repeat (destruct H2 as [<-|H2]; [cbn [hd fst snd]; intros; try reflexivity; exfalso; lia|]); destruct H2|]). destruct H1.
Qed.
Lemma char_prefix a b x y : utf8_char a -> utf8_char b -> a ++ x = b ++ y -> a = b /\ x = y.
Proof.
  intros HA HB E. destruct (char_shape a HA) as (c & a' & EA & _). destruct (char_shape b HB) as (d & b' & EB & _).
  destruct HA as (r1 & I1 & F1). destruct HB as (r2 & I2 & F2).
  assert (ER : r1 = r2).
  { subst a b. cbn in E. injection E as -> _. apply (first_range r1 r2 d I1 I2).
    - destruct r1 as [|z r1]; [discriminate|]. cbn [fits] in F1. apply andb_prop in F1. exact (proj1 F1).
    - destruct r2 as [|z r2]; [discriminate|]. cbn [fits] in F2. apply andb_prop in F2. exact (proj1 F2). }
  subst r2. apply fits_length in F1, F2. assert (EL : String.length a = String.length b) by congruence. clear - E EL.
  revert b E EL. induction a as [|c a IH]; intros [|d b] E EL; try discriminate; cbn in *; auto.
  injection E as -> E. destruct (IH b E ltac:(lia)) as [-> ->]. auto.
Qed.
Lemma utf8_head c s : utf8 (String c s) -> head_byte c.
Proof. intro H. inversion H as [|ch s' HC HS E]. destruct (char_shape ch HC) as (d & y & -> & HD & _). cbn in E. injection E as -> _. exact HD. Qed.
Lemma utf8_after a b : utf8 a -> utf8 (a ++ b) -> utf8 b.
Proof.
  induction 1 as [|ch a HC HA IH]; [auto|]. rewrite append_assoc. intro H. apply IH. inversion H as [E|ch' s HC' HS E].
  - destruct (char_shape ch HC) as (c & y & -> & _). discriminate E.
  - destruct (char_prefix ch' ch s (a ++ b) HC' HC E) as [_ <-]. exact HS.
Qed.
Lemma utf8_before a b : utf8 b -> utf8 (a ++ b) -> utf8 a.
Proof.
  intro HB. remember (String.length a) as n eqn:EN. revert a EN. induction n as [n IH] using (well_founded_induction lt_wf). intros a EN H.
  destruct a as [|c a]; [constructor|]. inversion H as [E|ch s HC HS E]. destruct (char_shape ch HC) as (d & y & EC & _ & HT).
  destruct (append_cases ch s (String c a) b E) as [(u & E1 & E2)|(x & u & E1 & E2)].
  - rewrite E1. constructor; auto. apply (IH (String.length u)); auto; [|congruence]. subst n. rewrite E1, length_append, EC. cbn. lia.
  - rewrite E2 in HB. apply utf8_head in HB. rewrite EC in E1. cbn in E1. injection E1 as _ ->. apply all_chars_app in HT. destruct HT as [_ [HT _]].
    unfold head_byte, tail_byte in *. lia.
Qed.
Lemma white_utf8 s : white s -> utf8 s.
Proof.
  assert (H : forallb (fun w => existsb (fun ranges => fits ranges w) char_ranges) white_chars = true) by (vm_compute; reflexivity).
  rewrite forallb_forall in H. induction 1 as [|w s HI HS IH]; constructor; auto. apply H in HI. apply existsb_exists in HI. exact HI.
Qed.
Lemma utf8_trim s : utf8 s -> utf8 (trim_space s).
Proof.
  intro H. destruct (trim_space_trimmed s) as (a & b & E & HA & HB & _). rewrite E in H.
  apply (utf8_before _ b); [apply white_utf8; exact HB|]. apply (utf8_after a); [apply white_utf8; exact HA|exact H].
Qed.

(** ** The dot *)
Lemma mat_ranges ranges : forall p m q, mat (ranges_rx ranges) p m q <-> fits ranges m = true.
Proof.
  unfold ranges_rx. induction ranges as [|x ranges IH]; intros p m q; cbn [fold_right].
  - split; intro H; [inversion H; reflexivity|]. destruct m; [constructor|discriminate].
  - split.
    + intro H. inversion H as [| |? ? ? a b ? H1 H2| | | | | |]; subst. inversion H1 as [|f c p0 q0 HF| | | | | | |]; subst. apply IH in H2. cbn. rewrite HF. exact H2.
    + destruct m as [|c m]; [discriminate|]. cbn [fits]. intro H. apply andb_prop in H. destruct H as [H1 H2].
      apply (mat_seq (RChr (within x)) _ p (String c "") m q); [constructor; exact H1|apply IH; exact H2].
Qed.
Lemma mat_rows rows p m q : mat (fold_right (fun ranges r => RAlt (ranges_rx ranges) r) (RChr (fun _ => false)) rows) p m q <-> exists ranges, In ranges rows /\ fits ranges m = true.
Proof.
  induction rows as [|x rows IH]; cbn [fold_right].
  - split; [intro H; inversion H; discriminate|intros (? & [] & _)].
  - split.
    + intro H. inversion H; subst.
      * exists x. split; [left; reflexivity|]. eapply mat_ranges. eassumption.
      * match goal with H : mat (fold_right _ _ _) _ _ _ |- _ => apply IH in H; destruct H as (y & HI & HF) end. exists y. split; [right|]; auto.
    + intros (y & [<-|HI] & HF); [apply mat_alt_l; apply mat_ranges; auto|apply mat_alt_r; apply IH; eauto].
Qed.
Lemma newline_fits ranges : In ranges several_bytes -> fits ranges (String newline "") = true -> False.
Proof.
  intros HI HF. assert (HB : forallb (fun r : list (nat * nat) => negb (fits r (String newline ""))) several_bytes = true) by reflexivity.
  rewrite forallb_forall in HB. specialize (HB ranges HI). rewrite HF in HB. discriminate.
Qed.
Lemma mat_rune p m q : mat any_rune p m q <-> utf8_char m /\ m <> String newline "".
Proof.
  unfold any_rune. rewrite mat_rows. split.
  - intros (ranges & [<-|[<-|HI]] & HF).
    + apply fits_one in HF. destruct HF as (c & -> & _ & HF). cbn [snd] in HF. split; [apply low_char; unfold low; lia|]. intro E. injection E as ->.
      change (nat_of_ascii newline) with 10 in HF. lia.
    + apply fits_one in HF. destruct HF as (c & -> & HG & HF). cbn [fst snd] in HF, HG. split; [apply low_char; unfold low; lia|]. intro E. injection E as ->.
      change (nat_of_ascii newline) with 10 in HG. lia.
    + split; [exists ranges; split; [right|]; auto|]. intros ->. eapply newline_fits; eauto.
  - intros [(ranges & [<-|HI] & HF) HN]; [|exists ranges; split; [right; right|]; auto].
    apply fits_one in HF. destruct HF as (c & -> & _ & HF). cbn [snd] in HF.
    assert (NC : nat_of_ascii c <> 10). { intro E. apply HN. rewrite <- (ascii_nat_embedding c), E. reflexivity. }
    destruct (le_lt_dec (nat_of_ascii c) 9) as [H9|H9].
    + exists [(0, 9)]. split; [left; reflexivity|]. apply fits_one. exists c. cbn [fst snd]. split; [reflexivity|lia].
    + exists [(11, 127)]. split; [right; left; reflexivity|]. apply fits_one. exists c. cbn [fst snd]. split; [reflexivity|lia].
Qed.
Lemma rune_no_newline ch : utf8_char ch -> (ch <> String newline "" <-> all_chars (fun c => c <> newline) ch).
Proof.
  intro H. destruct (char_cases ch H) as [(c & -> & HC)|[HH HN]].
  - cbn. split; [intro N; split; auto; intro E; apply N; congruence|]. intros [N _] E. congruence.
  - split.
    + intros _. eapply all_chars_impl; [|exact HH]. intros c HC E. subst c. unfold high in HC. cbn in HC. lia.
    + intros _ ->. cbn in HH. unfold high in HH. cbn in HH. lia.
Qed.
Lemma mat_star_rune p m q : mat (RStar any_rune) p m q <-> utf8 m /\ all_chars (fun c => c <> newline) m.
Proof.
  split.
  - intro H. remember (RStar any_rune) as r. revert Heqr. induction H; intro E; inversion E; subst; cbn; [split; [constructor|auto]|].
    apply mat_rune in H. destruct H as [HC HN]. destruct (IHmat2 eq_refl) as [H1 H2]. split; [constructor; auto|]. apply all_chars_app. split; auto. apply rune_no_newline; auto.
  - intros [H HN]. revert p HN. induction H as [|ch s HC HS IH]; intros p HN; [constructor|]. apply all_chars_app in HN. destruct HN as [H1 H2].
    apply (mat_star_cons any_rune p ch s q); [apply mat_rune; split; auto; apply rune_no_newline; auto|apply IH; auto].
Qed.

(** ** Globs *)
Definition rx_char8 (c : ascii) : rx := if Ascii.eqb c "*" then RStar any_rune else if Ascii.eqb c "?" then any_rune else lit c.
Fixpoint rx_pat8 (s : string) (k : rx) : rx := match s with EmptyString => k | String c s' => RSeq (rx_char8 c) (rx_pat8 s' k) end.
Definition anchored8 (s : string) : rx := RSeq RBegin (rx_pat8 s (RSeq REnd REps)).
Notation ok_char := (fun c => ~ In c ["\"; "+"; "("; ")"; "|"; "["; "]"; "{"; "}"]%char).

Lemma esc_atom8 c : ok_char c -> atom_text8 (esc c) (rx_char8 c).
Proof.
  intros HC. unfold esc, rx_char8.
  destruct (Ascii.eqb_spec c "."); [subst; constructor|].
  destruct (Ascii.eqb_spec c "$"); [subst; constructor; simpl; auto|].
  destruct (Ascii.eqb_spec c "^"); [subst; constructor; simpl; auto|].
  destruct (Ascii.eqb_spec c "*"); [subst; constructor|].
  destruct (Ascii.eqb_spec c "?"); [subst; constructor|].
  destruct (Ascii.eqb_spec c "/"); [subst; constructor; simpl; auto|].
  constructor. intro H. simpl in H, HC. intuition congruence.
Qed.
Lemma seq_pat8 s k tk : all_chars ok_char s -> seq_text8 tk k -> seq_text8 (cmap esc s ++ tk) (rx_pat8 s k).
Proof.
  intros HP HK. induction s as [|c s IH]; cbn; auto. destruct HP as [HC HP]. rewrite append_assoc. constructor; auto. apply esc_atom8; auto.
Qed.
Lemma anchored_text8 s : all_chars ok_char s -> seq_text8 ("^" ++ escape_pattern s ++ "$") (anchored8 s).
Proof.
  intro HP. rewrite escape_pattern_cmap. apply (st8_cons "^"); [constructor|]. apply seq_pat8; auto. apply (st8_cons "$" _ ""); constructor.
Qed.
Lemma mat_rx_pat8 s k : forall p m q, mat (rx_pat8 s k) p m q <-> exists a b, m = a ++ b /\ glob8 s a /\ mat k (p ++ a) b q.
Proof.
  induction s as [|c s IH]; intros p m q; cbn [rx_pat8].
  - split.
    + intro H. exists "", m. rewrite (append_nil_r p). repeat split; auto. constructor.
    + intros (a & b & -> & HG & H). inversion HG; subst. rewrite append_nil_r in H. auto.
  - split.
    + intro H. inversion H as [| |? ? ? x y ? H1 H2| | | | | |]; subst. apply IH in H2. destruct H2 as (a & b & -> & HG & HK).
      exists (x ++ a), b. rewrite append_assoc. split; auto. rewrite append_assoc in HK. split; auto.
      unfold rx_char8 in H1. destruct (Ascii.eqb_spec c "*") as [->|N1].
      * apply mat_star_rune in H1. destruct H1. constructor; auto.
      * destruct (Ascii.eqb_spec c "?") as [->|N2].
        -- apply mat_rune in H1. destruct H1. constructor; auto.
        -- apply mat_lit in H1. subst. cbn. constructor; auto.
    + intros (a & b & -> & HG & HK). unfold rx_char8. inversion HG as [|p' s1 s2 HU HN HR|ch p' s0 HU HN HR|c' p' s0 N1 N2 HR]; subst.
      * rewrite append_assoc. constructor; [apply mat_star_rune; auto|]. apply IH. exists s2, b. rewrite append_assoc. auto.
      * rewrite append_assoc. constructor; [apply mat_rune; auto|]. apply IH. exists s0, b. rewrite append_assoc. auto.
      * change (String c s0 ++ b) with (String c "" ++ (s0 ++ b)). constructor.
        -- rewrite (proj2 (Ascii.eqb_neq c "*")), (proj2 (Ascii.eqb_neq c "?")) by auto. apply mat_lit; auto.
        -- apply IH. exists s0, b. rewrite append_assoc. auto.
Qed.
Lemma found_anchored8 s t : found (anchored8 s) t <-> glob8 s t.
Proof.
  unfold found, anchored8. split.
  - intros (p & m & q & -> & H). inversion H as [| |? ? ? x y ? H1 H2| | | | | |]; subst.
    inversion H1; subst. apply mat_rx_pat8 in H2. destruct H2 as (a & b & -> & HG & HK).
    inversion HK as [| |? ? ? x y0 ? H3 H4| | | | | |]; subst. inversion H3; subst. inversion H4; subst.
    simpl in *. subst. rewrite !append_nil_r. auto.
  - intro HG. exists "", t, "". rewrite append_nil_r. split; auto.
    apply (mat_seq RBegin _ "" "" t ""); [constructor|]. apply mat_rx_pat8.
    exists t, "". rewrite append_nil_r. repeat split; auto.
    apply (mat_seq REnd REps t "" "" ""); constructor.
Qed.

(** ** Lists of alternatives *)
Fixpoint alts8 (l : list string) : rx :=
  match l with
  | [] => REps
  | [x] => anchored8 (trim_space x)
  | x :: l' => RAlt (anchored8 (trim_space x)) (alts8 l')
  end.
Lemma regex_items_text8 l : l <> [] -> Forall (all_chars ok_char) l -> alt_text8 (regex_items l) (alts8 l).
Proof.
  induction l as [|x l IH]; intros HN HF; [congruence|]. inversion HF as [|? ? Hx Hl]; subst. cbn [regex_items]. destruct l as [|y l].
  - cbn [alts8 regex_items]. rewrite append_nil_r. constructor. apply anchored_text8. apply trim_space_chars; auto.
  - change (alts8 (x :: y :: l)) with (RAlt (anchored8 (trim_space x)) (alts8 (y :: l))).
    replace ((("^" ++ escape_pattern (trim_space x) ++ "$") ++ "|") ++ regex_items (y :: l))
      with (("^" ++ escape_pattern (trim_space x) ++ "$") ++ "|" ++ regex_items (y :: l)) by (rewrite !append_assoc; auto).
    constructor; [apply anchored_text8; apply trim_space_chars; auto|]. apply IH; auto. discriminate.
Qed.
Lemma utf8_regex_items l : Forall utf8 l -> utf8 (regex_items l).
Proof.
  induction 1 as [|x l HX HL IH]; [constructor|]. cbn [regex_items].
  assert (HE : utf8 ("^" ++ escape_pattern (trim_space x) ++ "$")).
  { apply utf8_app; [apply ascii_utf8; cbn; repeat split; lia|]. apply utf8_app; [apply utf8_escaped, utf8_trim; auto|apply ascii_utf8; cbn; repeat split; lia]. }
  destruct l; apply utf8_app; auto. apply utf8_app; auto. apply ascii_utf8. cbn. repeat split; lia.
Qed.
Lemma found_alts8 l t : l <> [] -> (found (alts8 l) t <-> exists x, In x l /\ glob8 (trim_space x) t).
Proof.
  induction l as [|x l IH]; intro HN; [congruence|]. destruct l as [|y l].
  - cbn [alts8]. rewrite found_anchored8. split; [intro H; exists x; simpl; auto|]. intros (z & [->|[]] & H). auto.
  - change (alts8 (x :: y :: l)) with (RAlt (anchored8 (trim_space x)) (alts8 (y :: l))).
    rewrite found_alt, found_anchored8, IH by discriminate. split.
    + intros [H|(z & HZ & H)]; [exists x|exists z]; simpl; auto.
    + intros (z & [->|HZ] & H); [left; auto|right; eauto].
Qed.
Lemma list_accepts8_iff s t : list_accepts8 s t <-> exists x, In x (split_char "," s) /\ glob8 (trim_space x) t.
Proof.
  unfold list_accepts8. split.
  - intros (items & item & u & HI & HN & HT & HG). apply comma_items_iff in HI. apply trimmed_iff in HT. subst. eauto.
  - intros (x & HI & HG). exists (split_char "," s), x, (trim_space x). repeat split; auto using trim_space_trimmed; apply split_items.
Qed.
Lemma name_accepts8_iff pat t : name_accepts8 pat t <-> Exists (fun item => glob8 (without_spaces item) t) (split_char "," pat).
Proof.
  unfold name_accepts8. rewrite Exists_exists. split.
  - intros (items & item & HI & HN & HG). apply comma_items_iff in HI. subst. eauto.
  - intros (x & HI & HG). exists (split_char "," pat), x. repeat split; auto; apply split_items.
Qed.

Lemma exact_text8 s : all_chars (fun c => ~ In c metachars) s -> seq_text8 ("^" ++ s ++ "$") (Glob_proofs.exact s).
Proof.
  intro H. apply (st8_cons "^"); [constructor|]. induction s as [|c s IH]; cbn.
  - apply (st8_cons "$" _ ""); constructor.
  - destruct H as [HC H]. apply (st8_cons (String c "") _ (s ++ "$")); [constructor; auto|]. apply IH; auto.
Qed.
Lemma words_text8 l : l <> [] -> Forall (all_chars (fun c => ~ In c metachars)) l -> alt_text8 (words l) (exacts l).
Proof.
  induction l as [|x l IH]; intros HN HF; [congruence|]. inversion HF; subst. destruct l as [|y l].
  - constructor. apply exact_text8; auto.
  - change (words (x :: y :: l)) with ("^" ++ x ++ "$|" ++ words (y :: l)).
    change (exacts (x :: y :: l)) with (RAlt (Glob_proofs.exact x) (exacts (y :: l))).
    replace ("^" ++ x ++ "$|" ++ words (y :: l)) with (("^" ++ x ++ "$") ++ "|" ++ words (y :: l)) by (rewrite !append_assoc; auto).
    constructor; [apply exact_text8; auto|]. apply IH; auto. discriminate.
Qed.
Lemma utf8_words l : Forall utf8 l -> utf8 (words l).
Proof.
  induction 1 as [|x l HX HL IH]; [constructor|]. destruct l as [|y l].
  - cbn [words]. repeat apply utf8_app; auto; apply ascii_utf8; cbn; repeat split; lia.
  - change (words (x :: y :: l)) with ("^" ++ x ++ "$|" ++ words (y :: l)). repeat apply utf8_app; auto; apply ascii_utf8; cbn; repeat split; lia.
Qed.

Section WithLib.
Variable L : Lib.
Hypothesis HRE : Utf8RegexSpec L.

Lemma group_utf8 t : utf8 t -> utf8 ("(" ++ t ++ ")").
Proof. intro H. repeat apply utf8_app; auto; apply ascii_utf8; cbn; repeat split; lia. Qed.

Lemma wildcards_regex8 s : pattern8 s ->
  exists re, re_compile L (convert_string_to_regex s "WithWildcards") = Some re /\ forall t, utf8 t -> (re_match L re t = true <-> list_accepts8 s t).
Proof.
  intros [HU HP]. unfold convert_string_to_regex. simpl is_any. cbv iota.
  destruct (HRE ("(" ++ regex_items (split_char "," s) ++ ")") (alts8 (split_char "," s))) as (re & E & HM).
  { apply pt8_group. apply regex_items_text8; [apply split_nonempty|]. apply split_pattern_ok; auto. }
  { apply group_utf8, utf8_regex_items, utf8_items. exact HU. }
  exists re. split; auto. intros t HT. rewrite (HM t HT), found_alts8 by apply split_nonempty. symmetry. apply list_accepts8_iff.
Qed.
Lemma name_regex8 s : utf8 s -> all_chars ok_char s ->
  exists re, re_compile L ("^" ++ escape_pattern (replace_all s " " "") ++ "$") = Some re /\ forall t, utf8 t -> (re_match L re t = true <-> glob8 (without_spaces s) t).
Proof.
  intros HU HP. rewrite without_spaces_replace.
  destruct (HRE _ (anchored8 (without_spaces s)) (pt8_alt _ _ (al8_one _ _ (anchored_text8 _ (without_spaces_chars _ _ HP))))) as (re & E & HM).
  { repeat apply utf8_app; [apply ascii_utf8; cbn; repeat split; lia|apply utf8_escaped, utf8_without_spaces; auto|apply ascii_utf8; cbn; repeat split; lia]. }
  exists re. split; auto. intros t HT. rewrite (HM t HT). apply found_anchored8.
Qed.
Lemma words_regex8 l : l <> [] -> Forall utf8 l -> Forall (all_chars (fun c => ~ In c metachars)) l ->
  (exists re, re_compile L (words l) = Some re /\ forall t, utf8 t -> (re_match L re t = true <-> In t l)) /\
  (exists re, re_compile L ("(" ++ words l ++ ")") = Some re /\ forall t, utf8 t -> (re_match L re t = true <-> In t l)).
Proof.
  intros HN HU HF. split.
  - destruct (HRE _ _ (pt8_alt _ _ (words_text8 l HN HF)) (utf8_words l HU)) as (re & E & HM). exists re. split; auto. intros t HT. rewrite (HM t HT). apply found_exacts; auto.
  - destruct (HRE _ _ (pt8_group _ _ (words_text8 l HN HF)) (group_utf8 _ (utf8_words l HU))) as (re & E & HM). exists re. split; auto. intros t HT. rewrite (HM t HT). apply found_exacts; auto.
Qed.
Lemma plain_words l : forallb plainb l = true -> Forall utf8 l /\ Forall (all_chars (fun c => ~ In c metachars)) l.
Proof.
  intro H. apply all_plain in H. split; (eapply Forall_impl; [|exact H]); intros s HS.
  - apply ascii_utf8. induction s; cbn in *; auto. destruct HS as [[_ H1] HS]. auto.
  - eapply all_chars_impl; [|exact HS]. intros c [H1 _]. exact H1.
Qed.
Theorem operation_regex8 op : pattern8 op ->
  exists re, re_compile L (convert_operation op) = Some re /\ forall t, utf8 t -> (re_match L re t = true <-> operation_accepts8 op t).
Proof.
  intro HP. unfold convert_operation, operation_accepts8.
  destruct (is_any op ["*"]) eqn:E1.
  { apply is_any_iff in E1. destruct E1 as [<-|[]].
    destruct (HRE ".*" (RSeq (RStar any_rune) REps)) as (re & E & HM).
    { apply pt8_alt, al8_one. apply (st8_cons ".*" _ ""); constructor. }
    { apply ascii_utf8. cbn. repeat split; lia. }
    exists re. split; auto. intros t HT. rewrite (HM t HT). split; [auto|]. intros _.
    exists "", "", t. split; auto. apply (mat_seq _ _ "" "" "" t); constructor. }
  destruct (is_any op ["write"; "WRITE"]) eqn:E2.
  { apply is_any_iff in E2. destruct (plain_words ["POST"; "PUT"; "DELETE"] eq_refl) as [P1 P2].
    destruct (words_regex8 ["POST"; "PUT"; "DELETE"]) as [_ (re & E & HM)]; [discriminate|exact P1|exact P2|].
    exists re. split; auto. intros t HT. rewrite (HM t HT).
    split; [intro H; right; left; auto|]. intros [->|[[_ H]|[[H _]|[H _]]]]; auto.
    - simpl in E2. intuition discriminate.
    - simpl in E2, H. intuition congruence.
    - exfalso. apply H. simpl in E2 |- *. intuition. }
  destruct (is_any op ["read"; "READ"]) eqn:E3.
  { apply is_any_iff in E3. destruct (plain_words ["GET"; "HEAD"; "OPTIONS"; "TRACE"; "read"; "READ"] eq_refl) as [P1 P2].
    destruct (words_regex8 ["GET"; "HEAD"; "OPTIONS"; "TRACE"; "read"; "READ"]) as [_ (re & E & HM)]; [discriminate|exact P1|exact P2|].
    exists re. split; auto. intros t HT. rewrite (HM t HT).
    split; [intro H; right; right; left; auto|]. intros [->|[[H _]|[[_ H]|[H _]]]]; auto.
    - simpl in E3. intuition discriminate.
    - simpl in E3, H. intuition congruence.
    - exfalso. apply H. simpl in E3 |- *. intuition. }
  destruct (wildcards_regex8 op HP) as (re & E & HM). exists re. split; auto. intros t HT. rewrite (HM t HT).
  apply is_any_false in E1, E2, E3. split.
  - intro H. right. right. right. split; auto. simpl in E1, E2, E3 |- *. tauto.
  - intros [->|[[H _]|[[H _]|[_ H]]]]; auto; exfalso; [apply E1; simpl; auto|tauto|tauto].
Qed.
End WithLib.
