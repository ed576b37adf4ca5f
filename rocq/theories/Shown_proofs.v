(** Proofs about the texts of values (Spec_Shown). *)
From Coq Require Import List String Ascii Bool Arith ZArith Permutation Lia.
From Verif Require Import Base GoStr GoStr_facts GoFloat Types Json StrUtils Validate Prepare Parse Strings Spec_Tree Spec_Strings Strings_proofs
  Spec_Leaf Spec_Load Load_proofs Spec_Grammar Grammar_tree Spec_Format Format_proofs Spec_Integer Integer_proofs Spec_Shown.
Import ListNotations.
Open Scope string_scope.

Section WithLib.
Variable L : Lib.

Lemma values_shown l : Forall (fun v => go_value v -> forall s, go_fmt L v = s <-> shown L v s) l -> Forall go_value l ->
  forall ss, map (go_fmt L) l = ss <-> Forall2 (shown L) l ss.
Proof.
  intros IH HG. induction l as [|v l IHl]; intro ss.
  - split; [intros <-; constructor|]. inversion 1. reflexivity.
  - inversion IH as [|? ? H1 H2]; subst. inversion HG as [|? ? G1 G2]; subst. split.
    + intros <-. constructor; [apply H1; auto|apply IHl; auto].
    + inversion 1 as [|? s ? ss' HS HF]; subst. cbn. f_equal; [apply H1; auto|apply IHl; auto].
Qed.
Lemma entries_shown m : Forall (fun e : string * iface => go_value (snd e) -> forall s, go_fmt L (snd e) = s <-> shown L (snd e) s) m ->
  Forall (fun e => go_value (snd e)) m ->
  forall ts, map (fun e => (fst e, go_fmt L (snd e))) m = ts <-> Forall2 (fun e t => fst t = fst e /\ shown L (snd e) (snd t)) m ts.
Proof.
  intros IH HG. induction m as [|v l IHl]; intro ss.
  - split; [intros <-; constructor|]. inversion 1. reflexivity.
  - inversion IH as [|? ? H1 H2]; subst. inversion HG as [|? ? G1 G2]; subst. split.
    + intros <-. constructor; [split; [reflexivity|apply H1; auto]|apply IHl; auto].
    + inversion 1 as [|? s ? ss' [HK HS] HF]; subst. cbn. apply IHl in HF; auto. rewrite HF. f_equal.
      destruct s as [k s]. cbn in *. subst k. f_equal. apply H1; auto.
Qed.

Theorem fmt_shown v : go_value v -> forall s, go_fmt L v = s <-> shown L v s.
Proof.
  induction v as [|b|z|f|x|l IH|m IH|m IH] using iface_ind'; intros HG s.
  - split; [intros <-; constructor|inversion 1; reflexivity].
  - destruct b; (split; [intros <-; constructor|inversion 1; reflexivity]).
  - cbn [go_fmt]. rewrite fmt_int_iff. split; [intro H; constructor; exact H|inversion 1; assumption].
  - split; [intros <-; constructor|inversion 1; reflexivity].
  - split; [intros <-; constructor|inversion 1; reflexivity].
  - inversion HG as [| | | | |? HL| |]; subst. pose proof (values_shown l IH HL) as HV. cbn [go_fmt]. rewrite join_concat. split.
    + intros <-. constructor. apply HV. reflexivity.
    + inversion 1 as [| | | | | |? ss HS| |]; subst. apply HV in HS. rewrite HS. reflexivity.
  - inversion HG as [| | | | | |? HN HL|]; subst. pose proof (entries_shown m IH HL) as HV.
    assert (HK : NoDup (keys (map (fun e => (fst e, go_fmt L (snd e))) m))).
    { unfold keys in *. rewrite map_map. exact HN. }
    change (go_fmt L (GMapS m)) with (returns_fmt (map (fun e => (fst e, go_fmt L (snd e))) m)). split.
    + intros <-. eapply sh_map; [apply HV; reflexivity|]. apply map_text_iff; auto.
    + inversion 1 as [| | | | | | |? ts ? HF HT|]; subst. apply HV in HF. rewrite <- HF in HT. apply map_text_iff in HT; auto.
  - split; [intros <-; constructor|inversion 1; reflexivity].
Qed.

Lemma one_value_key ks k k' : condition_keys ks -> In k ks -> In k' ks -> value_key k -> value_key k' -> k = k'.
Proof.
  intros (a & mm & vs & rs & HA & HM & HV & HR & HP) H1 H2 K1 K2.
  apply (Permutation_in _ HP) in H1, H2.
  assert (HX : forall x, value_key x -> In x (a :: mm :: vs ++ rs)%list -> In x vs).
  { intros x HK [<-|[<-|HI]]; [| |apply in_app_or in HI; destruct HI as [HI|HI]; [exact HI|]].
    - destruct HA as [->| ->], HK; discriminate.
    - destruct HM as [->| ->], HK; discriminate.
    - destruct HR as [->|(r & -> & HR)]; [destruct HI|]. destruct HI as [<-|[]]. destruct HR as [->| ->], HK; discriminate. }
  apply HX in H1, H2; auto.
  assert (HI : forall x, int_key x -> value_key x -> False) by (intros x [->| ->] [E|E]; discriminate).
  assert (HF : forall x, float_key x -> value_key x -> False) by (intros x [->| ->] [E|E]; discriminate).
  destruct HV; cbn in H1, H2; intuition (subst; try congruence; exfalso; eauto).
Qed.
Lemma one_entry {A} (es : list (string * A)) k v w : NoDup (keys es) -> In (k, v) es -> In (k, w) es -> v = w.
Proof.
  induction es as [|[x y] es IH]; intros HN H1 H2; [destruct H1|]. inversion HN as [|? ? N1 N2]; subst.
  assert (HX : forall z, In (x, z) es -> False) by (intros z HZ; apply N1; apply (in_map fst) in HZ; exact HZ).
  destruct H1 as [H1|H1], H2 as [H2|H2].
  - congruence.
  - injection H1 as -> ->. destruct (HX _ H2).
  - injection H2 as -> ->. destruct (HX _ H1).
  - apply IH; auto.
Qed.

(** a condition found in a map stores the text of its value *)
Theorem condition_value es c : go_value (GMapS es) -> condition_keys (map fst es) -> Spec_Grammar.reads L "" (GMapS es) (NCond c) ->
  (forall v, given value_key es v -> shown L v (c_value c)) /\ (lacks value_key es -> c_value c = "").
Proof.
  intros HG HK HR.
  assert (HX : exists att method value ret, condition_text L es att method value ret /\ condition_stored L att method value ret c).
  { inversion HR as [v es' att method value ret c' HE HKE HT HS HI|v es' att method value ret c' f HE HKE HT HS HI|v k w n HE HI HR'| | | |]; subst.
    - destruct HE as [HE|HE]; [|discriminate]. injection HE as <-. exists att, method, value, ret. auto.
    - destruct HI as [HI|[HI|[HI|[]]]]; discriminate.
    - destruct HE as [HE|HE]; [|discriminate]. injection HE as ->. exfalso.
      destruct HK as (a & mm & vs & rs & _ & _ & _ & _ & HP). apply Permutation_length in HP. cbn in HP. lia. }
  destruct HX as (att & method & value & ret & HT & HS). rewrite (cs_value _ _ _ _ _ _ HS).
  inversion HG as [| | | | | |? HN HL|]; subst.
  destruct (ct_value _ _ _ _ _ _ HT) as [[HA ->]|(v & HV & ->)].
  - split; [intros v HV; destruct (HA v HV)|auto].
  - split.
    + intros w HW. assert (w = v) as ->.
      { destruct HV as (k & K1 & H1), HW as (k' & K2 & H2).
        assert (k = k') as <- by (eapply one_value_key; eauto; [apply (in_map fst) in H1; exact H1|apply (in_map fst) in H2; exact H2]).
        eapply one_entry; eauto. }
      apply fmt_shown; [|reflexivity]. destruct HV as (k & _ & HI). rewrite Forall_forall in HL. exact (HL _ HI).
    + intro HA. destruct (HA v HV).
Qed.

Theorem loaded_value ord es t c t' : fair ord -> go_value (GMapS es) -> condition_keys (map fst es) ->
  parse_conditions_tree L ord (GMapS es) t = (Ok (NCond c), t') ->
  (forall v, given value_key es v -> shown L v (c_value c)) /\ (lacks value_key es -> c_value c = "").
Proof.
  intros HF HG HK H. apply condition_value; auto. eapply grammar_sound; eauto.
Qed.
End WithLib.
