(** Values of JSON texts are values Go's decoder builds: each map has each key once. *)
From Coq Require Import List String Ascii Bool Arith ZArith.
From Verif Require Import Base GoStr GoFloat Types Json Spec_Json Json_proofs Spec_Load Load_proofs.
Import ListNotations.
Open Scope string_scope.

Section WithLib.
Variable L : Lib.

Lemma upsert_values {A} (P : A -> Prop) k a l : P a -> Forall (fun e => P (snd e)) l -> Forall (fun e => P (snd e)) (upsert k a l).
Proof.
  intros HA HF. induction HF as [|[x b] l HX HF IH]; simpl; auto. destruct (String.eqb k x); constructor; auto.
Qed.
Lemma object_entries {A} (P : A -> Prop) kvs : Forall (fun e => P (snd e)) kvs -> forall acc, NoDup (keys acc) -> Forall (fun e => P (snd e)) acc ->
  NoDup (keys (fold_left (fun acc kv => upsert (fst kv) (snd kv) acc) kvs acc)) /\
  Forall (fun e => P (snd e)) (fold_left (fun acc kv => upsert (fst kv) (snd kv) acc) kvs acc).
Proof.
  induction 1 as [|[k v] kvs HV HF IH]; intros acc HN HA; simpl; auto. apply IH; [apply keys_upsert; auto|apply upsert_values; auto].
Qed.
Lemma object_go kvs : Forall (fun e => go_value (snd e)) kvs -> go_value (object kvs).
Proof.
  intro H. destruct (object_entries go_value kvs H []) as [H1 H2]; [constructor|constructor|]. constructor; auto.
Qed.

Lemma text_go : (forall v s, text L v s -> go_value v) /\ (forall vs s, elements L vs s -> Forall go_value vs) /\
  (forall kvs s, members L kvs s -> Forall (fun e => go_value (snd e)) kvs).
Proof.
  apply json_mind; intros; try (constructor; auto; fail).
  - constructor; constructor.
  - apply object_go. auto.
Qed.
Theorem parsed_go_value s v : json_parse L s = Some v -> go_value v.
Proof.
  intro H. apply parse_iff in H. destruct H as (w1 & t & w2 & _ & _ & H & _). eapply text_go; eauto.
Qed.
End WithLib.
