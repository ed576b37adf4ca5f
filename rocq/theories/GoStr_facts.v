(** Facts about the string functions. *)
From Coq Require Import List String Ascii Bool Arith ZArith Lia.
From Verif Require Import Base GoStr.
Import ListNotations.
Open Scope string_scope.

Lemma prefix_iff p : forall s, String.prefix p s = true <-> exists r, s = p ++ r.
Proof.
  induction p as [|c p IH]; intro s.
  - simpl. split; [exists s; auto|destruct s; auto].
  - destruct s as [|d s]; simpl.
    + split; [discriminate|]. intros [r H]. discriminate.
    + destruct (ascii_dec c d) as [->|N].
      * rewrite IH. split; intros [r H]; exists r; [congruence|injection H; auto].
      * split; [discriminate|]. intros [r H]. injection H; intros; congruence.
Qed.

Lemma has_prefix_iff s p : has_prefix s p = true <-> exists r, s = p ++ r.
Proof. apply prefix_iff. Qed.

Lemma is_any_iff s l : is_any s l = true <-> In s l.
Proof.
  unfold is_any. rewrite existsb_exists. split.
  - intros (x & Hx & E). apply String.eqb_eq in E. subst; auto.
  - intro H. exists s. split; auto. apply String.eqb_refl.
Qed.

Lemma is_any_false s l : is_any s l = false <-> ~ In s l.
Proof. rewrite <- is_any_iff. destruct (is_any s l); split; intro H; try congruence; try tauto. Qed.

Lemma append_nil_r s : s ++ "" = s.
Proof. induction s; simpl; congruence. Qed.
Lemma append_assoc a b c : (a ++ b) ++ c = a ++ (b ++ c).
Proof. induction a; simpl; congruence. Qed.
Lemma append_inj_l a b c : a ++ b = a ++ c -> b = c.
Proof. induction a; simpl; intro H; auto. injection H; auto. Qed.
Lemma length_append a b : String.length (a ++ b) = (String.length a + String.length b)%nat.
Proof. induction a; simpl; auto. Qed.
