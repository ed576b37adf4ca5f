(** The reference library returns clock readings. *)
From Coq Require Import List String Ascii Bool Arith ZArith Lia.
From Verif Require Import Base GoStr GoFloat Types Spec_Messages RefLib.
Import ListNotations.
Open Scope Z_scope.

Lemma digit_bound c d : digit_val c = Some d -> 0 <= d <= 9.
Proof.
  unfold digit_val. set (n := nat_of_ascii c). destruct ((48 <=? n)%nat && (n <=? 57)%nat) eqn:E; [|discriminate].
  apply andb_true_iff in E. destruct E as [E1 E2]. apply Nat.leb_le in E1, E2. intro H. inversion H. lia.
Qed.
Lemma digits_nonneg s : forall a z, 0 <= a -> parse_digits a s = Some z -> 0 <= z.
Proof.
  induction s as [|c s IH]; intros a z Ha H; cbn [parse_digits] in H; [inversion H; lia|].
  destruct (digit_val c) eqn:E; [|discriminate]. apply digit_bound in E. eapply IH; [|exact H]. lia.
Qed.
Lemma uint_nonneg s z : parse_uint s = Some z -> 0 <= z.
Proof. unfold parse_uint. destruct s; [discriminate|]. apply digits_nonneg. lia. Qed.
Lemma span_bound s : forall a n, 0 <= a < 10 ^ Z.of_nat n -> let '(z, n', _) := span_dec a n s in 0 <= z < 10 ^ Z.of_nat n'.
Proof.
  induction s as [|c s IH]; intros a n Ha; cbn [span_dec]; auto. destruct (digit_val c) as [d|] eqn:E; auto. apply digit_bound in E. apply IH.
  rewrite Nat2Z.inj_succ, Z.pow_succ_r by lia. lia.
Qed.
Lemma fraction_bound z n : 0 <= z < 10 ^ Z.of_nat n -> 0 <= z * 10 ^ (9 - Z.of_nat n) < 1000000000.
Proof.
  intros [H1 H2]. destruct (Z_le_gt_dec (Z.of_nat n) 9) as [G|G].
  - assert (0 < 10 ^ (9 - Z.of_nat n)) by (apply Z.pow_pos_nonneg; lia). split; [nia|].
    change 1000000000 with (10 ^ 9). replace 9 with (Z.of_nat n + (9 - Z.of_nat n)) at 2 by ring. rewrite Z.pow_add_r by lia. nia.
  - rewrite (Z.pow_neg_r 10 (9 - Z.of_nat n)) by lia. lia.
Qed.

Lemma ref_time : TimeSpec RefLib.
Proof.
  intros s c H. change (parse_time RefLib s) with (ref_parse_time s) in H. unfold ref_parse_time, num_at in H.
  destruct (parse_uint (take 4 (drop 0 s))); [|discriminate]. destruct (parse_uint (take 2 (drop 5 s))); [|discriminate].
  destruct (parse_uint (take 2 (drop 8 s))); [|discriminate]. destruct (parse_uint (take 2 (drop 11 s))) as [h|] eqn:Eh; [|discriminate].
  destruct (parse_uint (take 2 (drop 14 s))) as [mi|] eqn:Em; [|discriminate]. destruct (parse_uint (take 2 (drop 17 s))) as [se|] eqn:Es; [|discriminate].
  apply uint_nonneg in Eh, Em, Es.
  match type of H with context [let '(ns, rest) := ?x in _] => assert (HN : 0 <= fst x < 1000000000); [|destruct x as [ns rest]] end.
  { destruct (drop 19 s) as [|a r]; [cbn; lia|]. destruct a as [[] [] [] [] [] [] [] []]; try (cbn [fst]; lia).
    pose proof (span_bound r 0 0 ltac:(cbn; lia)) as HB. destruct (span_dec 0 0 r) as [[zz nn] r']. apply fraction_bound in HB. exact HB. }
  cbn [fst] in HN. match type of H with (if ?b && _ then _ else _) = _ => destruct b eqn:EB; [|discriminate] end. cbn [andb] in H.
  match type of H with (if ?b then _ else _) = _ => destruct b; [|discriminate] end. inversion H; subst.
  rewrite !andb_true_iff in EB. destruct EB as [[[_ B1] B2] B3]. apply Z.leb_le in B1, B2, B3. cbn. lia.
Qed.
