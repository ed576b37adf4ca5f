(** The text of bytes (RFC 4648): what encoding/json prints for a []byte. *)
From Coq Require Import List String Ascii Bool Arith Lia.
From Verif Require Import Base GoStr Fields.
Import ListNotations.
Open Scope string_scope.

(** the 64 digits; three bytes are four digits, and a rest of one or two bytes is filled up with zero bits and marked with "=" *)
Definition digits64 : string := "ABCDEFGHIJKLMNOPQRSTUVWXYZabcdefghijklmnopqrstuvwxyz0123456789+/".
Definition digit64 (n : nat) (c : ascii) : Prop := String.get n digits64 = Some c.
Inductive encodes : string -> string -> Prop :=
| en_nil : encodes "" ""
| en_one x a b ca cb : digit64 a ca -> digit64 b cb -> (nat_of_ascii x * 16 = a * 64 + b)%nat -> encodes (String x "") (String ca (String cb "=="))
| en_two x y a b c ca cb cc : digit64 a ca -> digit64 b cb -> digit64 c cc -> ((nat_of_ascii x * 256 + nat_of_ascii y) * 4 = (a * 64 + b) * 64 + c)%nat ->
    encodes (String x (String y "")) (String ca (String cb (String cc "=")))
| en_three x y z a b c d ca cb cc cd r e : digit64 a ca -> digit64 b cb -> digit64 c cc -> digit64 d cd ->
    ((nat_of_ascii x * 256 + nat_of_ascii y) * 256 + nat_of_ascii z = ((a * 64 + b) * 64 + c) * 64 + d)%nat -> encodes r e ->
    encodes (String x (String y (String z r))) (String ca (String cb (String cc (String cd e)))).

Lemma digit_below n : (n < 64)%nat -> digit64 n (base64_char n).
Proof. intro H. do 64 (destruct n as [|n]; [reflexivity|]). lia. Qed.
Lemma byte_below c : (nat_of_ascii c < 256)%nat.
Proof. destruct c as [[] [] [] [] [] [] [] []]; apply Nat.ltb_lt; vm_compute; reflexivity. Qed.

Lemma quarter x : (x < 256)%nat -> (x / 4 < 64 /\ x mod 4 < 4 /\ x = 4 * (x / 4) + x mod 4)%nat.
Proof. intro H. repeat split; [apply Nat.div_lt_upper_bound; lia|apply Nat.mod_upper_bound; lia|apply Nat.div_mod; lia]. Qed.
Lemma sixteenth x : (x < 256)%nat -> (x / 16 < 16 /\ x mod 16 < 16 /\ x = 16 * (x / 16) + x mod 16)%nat.
Proof. intro H. repeat split; [apply Nat.div_lt_upper_bound; lia|apply Nat.mod_upper_bound; lia|apply Nat.div_mod; lia]. Qed.
Lemma sixtyfourth x : (x < 256)%nat -> (x / 64 < 4 /\ x mod 64 < 64 /\ x = 64 * (x / 64) + x mod 64)%nat.
Proof. intro H. repeat split; [apply Nat.div_lt_upper_bound; lia|apply Nat.mod_upper_bound; lia|apply Nat.div_mod; lia]. Qed.
Theorem base64_encodes : forall s, encodes s (base64 s).
Proof.
  fix IH 1. intros [|x [|y [|z r]]]; cbn [base64].
  - constructor.
  - pose proof (quarter _ (byte_below x)) as (H1 & H2 & H3). eapply en_one; [apply digit_below|apply digit_below|]; lia.
  - pose proof (quarter _ (byte_below x)) as (H1 & H2 & H3). pose proof (sixteenth _ (byte_below y)) as (K1 & K2 & K3).
    eapply en_two; [apply digit_below|apply digit_below|apply digit_below|]; lia.
  - pose proof (quarter _ (byte_below x)) as (H1 & H2 & H3). pose proof (sixteenth _ (byte_below y)) as (K1 & K2 & K3). pose proof (sixtyfourth _ (byte_below z)) as (G1 & G2 & G3).
    eapply en_three; [apply digit_below|apply digit_below|apply digit_below|apply digit_below| |apply IH]; lia.
Qed.

(** and no two byte sequences have the same text *)
Lemma digit_unique n m c : digit64 n c -> digit64 m c -> n = m.
Proof.
  assert (HI : forall n c, digit64 n c -> String.index 0 (String c "") digits64 = Some n).
  { clear. intros n c H. unfold digit64 in H. do 64 (destruct n as [|n]; [cbn in H; injection H as <-; vm_compute; reflexivity|]). destruct n; discriminate H. }
  intros H K. apply HI in H, K. congruence.
Qed.
Lemma digit_bound n c : digit64 n c -> (n < 64)%nat /\ c <> "="%char.
Proof. intro H. unfold digit64 in H. do 64 (destruct n as [|n]; [cbn in H; injection H as <-; split; [lia|discriminate]|]). destruct n; discriminate H. Qed.
Lemma byte_inj x y : nat_of_ascii x = nat_of_ascii y -> x = y.
Proof. intro H. rewrite <- (ascii_nat_embedding x), <- (ascii_nat_embedding y), H. reflexivity. Qed.
Ltac same_digits := repeat match goal with H : digit64 ?n ?c, K : digit64 ?m ?c |- _ => lazymatch n with m => fail | _ => pose proof (digit_unique n m c H K); subst end end.
Ltac bounds := repeat match goal with H : digit64 ?n ?c |- _ => apply digit_bound in H; destruct H as [? ?] end.
Ltac bytes := repeat match goal with |- context [String ?x _] => lazymatch goal with H : (nat_of_ascii x < 256)%nat |- _ => fail | _ => pose proof (byte_below x) end end.
Theorem encodes_inj s e : encodes s e -> forall s', encodes s' e -> s = s'.
Proof.
  induction 1 as [|x a b ca cb Ha Hb HE|x y a b c ca cb cc Ha Hb Hc HE|x y z a b c d ca cb cc cd r e Ha Hb Hc Hd HE HR IH]; intros s' K; inversion K; subst; clear K; auto.
  - same_digits. f_equal. apply byte_inj. lia.
  - bounds; congruence.
  - bounds; congruence.
  - bounds; congruence.
  - same_digits. pose proof (byte_below x). pose proof (byte_below y). pose proof (byte_below x0). pose proof (byte_below y0).
    assert (nat_of_ascii x = nat_of_ascii x0 /\ nat_of_ascii y = nat_of_ascii y0) as [E1 E2] by lia. apply byte_inj in E1, E2. subst. reflexivity.
  - bounds; congruence.
  - bounds; congruence.
  - bounds; congruence.
  - same_digits. pose proof (byte_below x). pose proof (byte_below y). pose proof (byte_below z). pose proof (byte_below x0). pose proof (byte_below y0). pose proof (byte_below z0).
    assert (nat_of_ascii x = nat_of_ascii x0 /\ nat_of_ascii y = nat_of_ascii y0 /\ nat_of_ascii z = nat_of_ascii z0) as (E1 & E2 & E3) by lia. apply byte_inj in E1, E2, E3. subst. do 3 f_equal. apply IH. assumption.
Qed.
