(** The reference library reads decimal integers, and no text starting with #. *)
From Coq Require Import List String Ascii Bool Arith ZArith Lia.
From Verif Require Import Base GoStr GoStr_facts GoFloat Types RefLib Spec_Leaf Number_proofs.
Import ListNotations.
Open Scope string_scope.

Lemma span_dec_digits s : forall a n z, parse_digits a s = Some z ->
  span_dec a n s = (z, (n + String.length s)%nat, "").
Proof.
  induction s as [|c s IH]; intros a n z H; simpl in *.
  - injection H; intros ->. rewrite Nat.add_0_r. auto.
  - destruct (digit_val c); [|discriminate]. rewrite (IH _ _ _ H). rewrite Nat.add_succ_r. auto.
Qed.

Lemma span_uint s z : parse_uint s = Some z -> exists n, span_dec 0 0 s = (z, S n, "").
Proof.
  destruct s as [|c s]; [discriminate|]. unfold parse_uint. intro H. rewrite (span_dec_digits _ _ _ _ H). simpl. eauto.
Qed.

Lemma signs s : exists (neg : bool) s1,
  match s with String "-" r => (true, r) | String "+" r => (false, r) | _ => (false, s) end = (neg, s1) /\
  match s with
  | String "-" s' => option_map Z.opp (parse_uint s')
  | String "+" s' => parse_uint s'
  | _ => parse_uint s
  end = option_map (if neg then Z.opp else fun z => z) (parse_uint s1).
Proof.
  assert (I : forall o : option Z, o = option_map (fun z => z) o) by (intros [z|]; auto).
  destruct s as [|c s].
  - exists false, "". auto.
  - destruct c as [[] [] [] [] [] [] [] []];
      first [exists false, s; split; [reflexivity|apply I] | exists true, s; split; reflexivity | eexists false, _; split; [reflexivity|apply I]].
Qed.

Lemma parse_digits_nonneg s : forall a z, (0 <= a)%Z -> parse_digits a s = Some z -> (0 <= z)%Z.
Proof.
  induction s as [|c s IH]; intros a z HA H; simpl in H.
  - injection H; intros <-. auto.
  - destruct (digit_val c) as [d|] eqn:ED; [|discriminate]. eapply IH; [|eauto].
    unfold digit_val in ED. destruct (_ && _)%bool; [|discriminate]. injection ED; intros <-. lia.
Qed.

Theorem RefLib_number : NumberSpec RefLib.
Proof.
  split.
  - intros s z H. change (parse_float RefLib s) with (ref_parse_float s). unfold ref_parse_float.
    destruct (is_any _ ["inf"; "+inf"; "infinity"; "+infinity"]); [discriminate|].
    destruct (is_any _ ["-inf"; "-infinity"]); [discriminate|].
    destruct (String.eqb _ "nan"); [discriminate|].
    assert (HS : exists neg s1 y, match s with
                      | String "-" r => (true, r)
                      | String "+" r => (false, r)
                      | _ => (false, s)
                      end = (neg, s1) /\ parse_uint s1 = Some y /\ (y < 2 ^ 64)%Z).
    { unfold parse_int in H. destruct (signs s) as (neg & s1 & E1 & E2). rewrite E2 in H.
      destruct (parse_uint s1) as [y|] eqn:EU; [|discriminate]. simpl in H.
      exists neg, s1, y. split; auto. split; auto.
      destruct (_ && _) eqn:EB in H; [|discriminate].
      apply andb_true_iff in EB. rewrite !Z.leb_le in EB. unfold min_int64, max_int64 in EB.
      destruct neg; lia. }
    destruct HS as (neg & s1 & y & -> & HU & HY). destruct (span_uint _ _ HU) as (n & ->).
    cbn [Nat.add Nat.eqb]. 
    replace ((0 =? 0)%Z && (y <? 2 ^ 64)%Z) with true by (symmetry; rewrite andb_true_iff, Z.ltb_lt; auto).
    rewrite andb_false_r. discriminate.
  - intro s. change (parse_float RefLib (String "#" s)) with (ref_parse_float (String "#" s)). unfold ref_parse_float.
    change (to_lower (String "#" s)) with (String "#" (to_lower s)).
    set (l := to_lower s). cbn. reflexivity.
Qed.
