(** Whole numbers: [parse_int] and [fmt_int] against Spec_Integer. *)
From Coq Require Import List String Ascii Bool Arith ZArith Lia.
From Verif Require Import Base GoStr Spec_Integer.
Import ListNotations.
Open Scope string_scope.

Lemma digit_val_iff c d : digit_val c = Some d <-> digit_is c d.
Proof.
  unfold digit_val, digit_is. cbv zeta. split.
  - destruct ((48 <=? nat_of_ascii c)%nat && (nat_of_ascii c <=? 57)%nat) eqn:E; [|discriminate].
    apply andb_true_iff in E. rewrite !Nat.leb_le in E. intro H. injection H as <-. lia.
  - intros [H1 H2]. assert (H : (48 <= nat_of_ascii c <= 57)%nat) by lia.
    replace ((48 <=? nat_of_ascii c)%nat && (nat_of_ascii c <=? 57)%nat) with true
      by (symmetry; apply andb_true_iff; rewrite !Nat.leb_le; lia).
    f_equal. lia.
Qed.

Lemma app_assoc_str a b c : (a ++ b) ++ c = a ++ b ++ c.
Proof. induction a as [|x a IH]; cbn; [reflexivity|rewrite IH; reflexivity]. Qed.

Lemma parse_digits_snoc s : forall a c, parse_digits a (s ++ String c "") =
  match parse_digits a s with Some x => option_map (fun d => (x * 10 + d)%Z) (digit_val c) | None => None end.
Proof.
  induction s as [|x s IH]; intros a c; cbn.
  - destruct (digit_val c); reflexivity.
  - destruct (digit_val x); [apply IH|reflexivity].
Qed.

Lemma reads_parse s z : reads s z -> parse_uint s = Some z.
Proof.
  intro H. assert (E : parse_digits 0 s = Some z).
  { induction H as [c d HD|s z c d HR IH HD].
    - cbn. apply digit_val_iff in HD. rewrite HD. reflexivity.
    - rewrite parse_digits_snoc, IH. apply digit_val_iff in HD. rewrite HD. cbn [option_map]. f_equal. lia. }
  destruct s; [inversion H|exact E].
  destruct s; discriminate.
Qed.

Lemma parse_reads s : forall p a z, (p = "" /\ a = 0%Z \/ reads p a) -> parse_digits a s = Some z -> p ++ s <> "" -> reads (p ++ s) z.
Proof.
  induction s as [|c s IH]; intros p a z HP H HN.
  - cbn in H. injection H as <-. destruct HP as [[-> ->]|HP]; [destruct HN; reflexivity|].
    replace (p ++ "") with p; [exact HP|]. clear. induction p as [|x p IH]; cbn; [reflexivity|rewrite <- IH; reflexivity].
  - cbn in H. destruct (digit_val c) as [d|] eqn:ED; [|discriminate]. apply digit_val_iff in ED.
    replace (p ++ String c s) with ((p ++ String c "") ++ s) by (rewrite app_assoc_str; reflexivity).
    eapply IH; [|exact H|destruct p; discriminate].
    right. destruct HP as [[-> ->]|HP].
    + replace (0 * 10 + d)%Z with d by lia. apply rd_one. exact ED.
    + replace (a * 10 + d)%Z with (10 * a + d)%Z by lia. apply rd_more; assumption.
Qed.

Lemma parse_uint_iff s z : parse_uint s = Some z <-> reads s z.
Proof.
  split; [|apply reads_parse]. unfold parse_uint. destruct s as [|c s]; [discriminate|].
  intro H. apply (parse_reads (String c s) "" 0 z); auto. discriminate.
Qed.

Lemma reads_first s z : reads s z -> exists c r, s = String c r /\ c <> "+"%char /\ c <> "-"%char.
Proof.
  induction 1 as [c d [H1 H2]|s z c d HR (x & r & -> & IH) HD].
  - exists c, "". split; [reflexivity|]. split; intros ->; [change (Z.of_nat (nat_of_ascii "+")) with 43%Z in H2|change (Z.of_nat (nat_of_ascii "-")) with 45%Z in H2]; lia.
  - exists x, (r ++ String c ""). auto.
Qed.

Lemma parse_int_plain c s : c <> "+"%char -> c <> "-"%char -> parse_int (String c s) =
  match parse_uint (String c s) with
  | Some z => if ((min_int64 <=? z)%Z && (z <=? max_int64)%Z)%bool then Some z else None
  | None => None
  end.
Proof.
  intros N1 N2. unfold parse_int. destruct c as [[] [] [] [] [] [] [] []]; try reflexivity; congruence.
Qed.

Lemma in_range z : ((min_int64 <=? z)%Z && (z <=? max_int64)%Z)%bool = true <-> (- 2 ^ 63 <= z < 2 ^ 63)%Z.
Proof. unfold min_int64, max_int64. rewrite andb_true_iff, !Z.leb_le. lia. Qed.

Lemma pick (b : bool) (x z : Z) : (if b then Some x else None) = Some z <-> b = true /\ x = z.
Proof. destruct b; split; [intro H; injection H; auto|intros [_ ->]; reflexivity|discriminate|intros [H _]; discriminate]. Qed.

Theorem parse_int_iff s z : parse_int s = Some z <-> integer_text s z.
Proof.
  unfold integer_text. rewrite <- in_range.
  destruct s as [|c s].
  { split; [discriminate|]. intros [_ [H|[(r & E & _)|(r & E & _)]]]; [|discriminate|discriminate].
    apply reads_first in H. destruct H as (c & r & E & _). discriminate. }
  destruct (ascii_dec c "-") as [->|N1]; [|destruct (ascii_dec c "+") as [->|N2]].
  - unfold parse_int. cbv iota. destruct (parse_uint s) as [x|] eqn:EU; cbn [option_map].
    + rewrite pick. split.
      * intros [HR <-]. split; [exact HR|]. right. right. exists s. split; [reflexivity|]. rewrite Z.opp_involutive. apply parse_uint_iff. exact EU.
      * intros [HR HC]. assert (E : (- x = z)%Z).
        { destruct HC as [H|[(r & E & _)|(r & E & H)]]; [|discriminate|].
          - apply reads_first in H. destruct H as (c & r & E & _ & H). injection E as <- _. congruence.
          - injection E as <-. apply parse_uint_iff in H. rewrite EU in H. injection H. lia. }
        rewrite E. auto.
    + split; [discriminate|]. intros [_ [H|[(r & E & _)|(r & E & H)]]]; [|discriminate|].
      * apply reads_first in H. destruct H as (c & r & E & _ & H). injection E as <- _. congruence.
      * injection E as <-. apply parse_uint_iff in H. congruence.
  - unfold parse_int. cbv iota. destruct (parse_uint s) as [x|] eqn:EU.
    + rewrite pick. split.
      * intros [HR <-]. split; [exact HR|]. right. left. exists s. split; [reflexivity|]. apply parse_uint_iff. exact EU.
      * intros [HR HC]. assert (E : x = z).
        { destruct HC as [H|[(r & E & H)|(r & E & _)]]; [| |discriminate].
          - apply reads_first in H. destruct H as (c & r & E & H & _). injection E as <- _. congruence.
          - injection E as <-. apply parse_uint_iff in H. congruence. }
        rewrite E. auto.
    + split; [discriminate|]. intros [_ [H|[(r & E & H)|(r & E & _)]]]; [| |discriminate].
      * apply reads_first in H. destruct H as (c & r & E & H & _). injection E as <- _. congruence.
      * injection E as <-. apply parse_uint_iff in H. congruence.
  - rewrite (parse_int_plain c s N2 N1). destruct (parse_uint (String c s)) as [x|] eqn:EU.
    + rewrite pick. split.
      * intros [HR <-]. split; [exact HR|]. left. apply parse_uint_iff. exact EU.
      * intros [HR [H|[(r & E & _)|(r & E & _)]]]; [|injection E as E _; congruence|injection E as E _; congruence].
        apply parse_uint_iff in H. rewrite EU in H. injection H as ->. auto.
    + split; [discriminate|]. intros [_ [H|[(r & E & _)|(r & E & _)]]]; [|injection E as E _; congruence|injection E as E _; congruence].
      apply parse_uint_iff in H. congruence.
Qed.

Lemma parse_int_none s : parse_int s = None <-> ~ exists z, integer_text s z.
Proof.
  split.
  - intros H [z HZ]. apply parse_int_iff in HZ. congruence.
  - intro H. destruct (parse_int s) as [z|] eqn:E; [|reflexivity]. destruct H. exists z. apply parse_int_iff. exact E.
Qed.

(** ** Printing *)
Lemma digit_char d : (0 <= d < 10)%Z -> digit_is (ascii_of_nat (48 + Z.to_nat d)) d.
Proof. intro H. split; [exact H|]. rewrite nat_ascii_embedding by lia. lia. Qed.

Lemma digit_same c d c' : digit_is c d -> digit_is c' d -> c = c'.
Proof.
  intros [_ H1] [_ H2]. rewrite <- (ascii_nat_embedding c), <- (ascii_nat_embedding c'). f_equal. lia.
Qed.

Lemma reads_nonneg s z : reads s z -> (0 <= z)%Z.
Proof. induction 1 as [c d [H _]|s z c d HR IH [H _]]; lia. Qed.

Lemma reads_zero s z : reads s z -> z = 0%Z -> exists r, s = String "0" r.
Proof.
  induction 1 as [c d HD|s z c d HR IH HD]; intro E.
  - subst d. exists "". f_equal. apply (digit_same c 0 "0"%char HD). split; [lia|reflexivity].
  - destruct HD as [HD _]. destruct IH as [r ->]; [apply reads_nonneg in HR; lia|]. exists (r ++ String c ""). reflexivity.
Qed.

Lemma digits_shape f : forall z acc, (0 <= z < 2 ^ Z.of_nat f)%Z -> f <> O ->
  exists t, digits_fuel f z acc = t ++ acc /\ reads t z /\ no_needless_zero t.
Proof.
  induction f as [|f IH]; intros z acc HZ HF; [congruence|]. cbn [digits_fuel]. cbv zeta.
  assert (HD : digit_is (ascii_of_nat (48 + Z.to_nat (z mod 10))) (z mod 10)) by (apply digit_char, Z.mod_pos_bound; lia).
  pose proof (Z.div_mod z 10 ltac:(lia)) as HE. pose proof (Z.mod_pos_bound z 10 ltac:(lia)) as HM.
  set (c := ascii_of_nat (48 + Z.to_nat (z mod 10))) in *. clearbody c.
  destruct (Z.eqb_spec (z / 10) 0) as [E0|N0].
  - exists (String c ""). split; [reflexivity|]. split; [|intros r E; injection E; auto].
    replace z with (z mod 10)%Z at 1 by lia. apply rd_one. exact HD.
  - rewrite Nat2Z.inj_succ, Z.pow_succ_r in HZ by lia.
    destruct (IH (z / 10)%Z (String c acc)) as (t & E & HR & HN).
    + split; [lia|]. apply Z.div_lt_upper_bound; lia.
    + intros ->. cbn in HZ. lia.
    + exists (t ++ String c ""). split; [rewrite E, app_assoc_str; reflexivity|]. split.
      * rewrite HE. apply rd_more; assumption.
      * intros r ER. destruct t as [|x t]; [apply reads_first in HR; destruct HR as (? & ? & X & _); discriminate|].
        cbn in ER. injection ER as -> ER. assert (t = "") by (apply HN; reflexivity). subst t.
        inversion HR as [c0 d0 HD0 EA EB|s0 z0 c0 d0 HR0 HD0 EA EB].
        -- destruct N0. destruct HD0 as [_ H0]. change (Z.of_nat (nat_of_ascii "0")) with 48%Z in H0. lia.
        -- destruct s0; [|destruct s0; discriminate]. apply reads_first in HR0. destruct HR0 as (? & ? & X & _). discriminate.
Qed.

Lemma fmt_nat_shape z : (0 <= z)%Z -> reads (fmt_nat z) z /\ no_needless_zero (fmt_nat z).
Proof.
  intro HZ. unfold fmt_nat. destruct (digits_shape (S (Z.to_nat (Z.log2 z))) z "") as (t & E & H).
  - split; [exact HZ|]. rewrite Nat2Z.inj_succ, Z2Nat.id by apply Z.log2_nonneg.
    destruct (Z.eq_dec z 0) as [->|N]; [reflexivity|]. apply Z.log2_spec. lia.
  - discriminate.
  - rewrite E. replace (t ++ "") with t; [exact H|]. clear. induction t as [|x t IH]; cbn; [reflexivity|rewrite <- IH; reflexivity].
Qed.

Lemma snoc_cases a c b d : a ++ String c "" = b ++ String d "" -> a = b /\ c = d.
Proof.
  revert b. induction a as [|x a IH]; intros [|y b] H; cbn in H.
  - injection H; auto.
  - injection H as _ H. destruct b; discriminate.
  - injection H as _ H. destruct a; discriminate.
  - injection H as -> H. apply IH in H. destruct H as [-> ->]. auto.
Qed.

Lemma no_zero_front s c : s <> "" -> no_needless_zero (s ++ String c "") -> no_needless_zero s /\ forall r, s <> String "0" r.
Proof.
  intros HS HN. assert (H : forall r, s <> String "0" r).
  { intros r ->. specialize (HN (r ++ String c "") eq_refl). destruct r; discriminate. }
  split; [|exact H]. intros r E. destruct (H r E).
Qed.

Lemma reads_one_text s z : reads s z -> no_needless_zero s -> forall s', reads s' z -> no_needless_zero s' -> s = s'.
Proof.
  induction 1 as [c d HD|s z c d HR IH HD]; intros HN s' HR' HN'.
  - inversion HR' as [c0 d0 HD0 EA EB|s0 z0 c0 d0 HR0 HD0 EA EB]; subst.
    + f_equal. eapply digit_same; eauto.
    + exfalso. destruct HD as [HD _], HD0 as [HD0 _]. pose proof (reads_nonneg _ _ HR0).
      destruct (reads_zero _ _ HR0) as [r E]; [lia|].
      apply no_zero_front in HN'; [|rewrite E; discriminate]. destruct HN' as [_ X]. exact (X r E).
  - assert (NE : s <> "") by (intros ->; apply reads_first in HR; destruct HR as (? & ? & X & _); discriminate).
    destruct (no_zero_front s c NE HN) as [HN1 HN2].
    remember (10 * z + d)%Z as n eqn:EN. destruct HR' as [c0 d0 HD0|s0 z0 c0 d0 HR0 HD0].
    + exfalso. destruct HD as [HD _], HD0 as [HD0 _]. pose proof (reads_nonneg _ _ HR).
      destruct (reads_zero _ _ HR) as [r E]; [lia|]. exact (HN2 r E).
    + assert (z0 = z /\ d0 = d) as [-> ->] by (destruct HD as [HD _], HD0 as [HD0 _]; lia).
      assert (NE' : s0 <> "") by (intros ->; apply reads_first in HR0; destruct HR0 as (? & ? & X & _); discriminate).
      destruct (no_zero_front s0 c0 NE' HN') as [HN1' _].
      rewrite (IH HN1 s0 HR0 HN1'), (digit_same c d c0 HD HD0). reflexivity.
Qed.

Theorem fmt_int_iff z s : fmt_int z = s <-> printed_as z s.
Proof.
  unfold fmt_int, printed_as. destruct (Z.ltb_spec z 0) as [HZ|HZ].
  - destruct (fmt_nat_shape (- z)) as [HR HN]; [lia|]. split.
    + intros <-. right. split; [exact HZ|]. exists (fmt_nat (- z)). auto.
    + intros [[H _]|(_ & r & -> & HR' & HN')]; [apply reads_nonneg in H; lia|].
      cbn. f_equal. eapply reads_one_text; eauto.
  - destruct (fmt_nat_shape z) as [HR HN]; [lia|]. split.
    + intros <-. left. auto.
    + intros [[HR' HN']|[H _]]; [|lia]. eapply reads_one_text; eauto.
Qed.
