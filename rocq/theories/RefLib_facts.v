(** The reference library meets the hypotheses made about libraries. *)
From Coq Require Import List String Ascii Bool Arith ZArith Lia Permutation.
From Verif Require Import Base GoStr GoStr_facts GoFloat Types Json Spec_Tree Spec_Regex Spec_Match
  Ref_Regex Ref_Regex_proofs RefLib.
Import ListNotations.
Open Scope string_scope.

Theorem RefLib_regex : RegexSpec RefLib.
Proof.
  intros t r H. destruct (rx_compile_text t r H) as (r' & E & HF).
  exists r'. split; auto. intros s _. simpl. rewrite rx_match_found. apply HF.
Qed.

Lemma ipv4_length s i : ipv4 s = Some i -> List.length i = 4%nat.
Proof.
  unfold ipv4. destruct (map octet (split_char "." s)) as [|[a|] [|[b|] [|[c|] [|[d|] [|]]]]]; intro H; try discriminate.
  injection H; intros; subst; auto.
Qed.

Theorem RefLib_cidr : CidrSpec RefLib.
Proof.
  intros s n. cbn [parse_cidr RefLib]. unfold ref_parse_cidr.
  destruct (split_char "/" s) as [|a [|b [|]]]; try discriminate.
  destruct (ipv4 a) as [i|] eqn:E; [|discriminate]. destruct (parse_uint b) as [k|]; [|discriminate].
  destruct (k <=? 32)%Z; [|discriminate]. intro H. injection H; intros; subst. apply ipv4_length in E.
  destruct i as [|a0 [|a1 [|a2 [|a3 [|]]]]]; try discriminate. split; [reflexivity|left; reflexivity].
Qed.

Lemma in_order_fair : fair in_order.
Proof. intros n ks. apply Permutation_refl. Qed.
Lemma reversed_fair : fair reversed.
Proof. intros n ks. apply Permutation_sym, Permutation_rev. Qed.
