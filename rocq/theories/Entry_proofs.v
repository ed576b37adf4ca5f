(** Proofs about conditions on the key and the value of an entry. *)
From Coq Require Import List String Ascii Bool Arith ZArith.
From Verif Require Import Base GoStr GoFloat Types Json StrUtils Validate Prepare Parse Eval Lifecycle Spec_Tree Tree_laws
  Spec_Regex Spec_Glob Spec_Json Json_proofs Spec_Leaf Leaf_laws Spec_Load Load_proofs Spec_Shown Shown_proofs Decode_proofs
  Spec_Cleaned Cleaned_proofs Spec_Encoded Encoded_proofs.
Import ListNotations.
Open Scope string_scope.

Section WithLib.
Variable L : Lib.

Lemma status_text v t s : go_value v -> found L v t -> t <> "<nil>" -> compared t s -> value_status L v = s.
Proof.
  intros HG HF HT HC. apply text_found in HF; [|exact HG]. unfold value_status. rewrite HF. apply String.eqb_neq in HT. rewrite HT. apply status_iff. exact HC.
Qed.

Theorem key_condition : forall p method value ret c v kd k x s m b, NumberSpec L ->
  prepares L p "jsonpath:$KEY" method value ret c -> replaced p method value v -> plain_value v -> method_is method kd ->
  jp_prepare L "$.*" <> None -> m_raw m <> None -> m_raw_rel m = Some (GMapS [(k, x)]) -> k <> "<nil>" ->
  compared k s -> may_return L (NCond c) m b -> (b = true <-> satisfied L kd v s).
Proof.
  intros p method value ret c v kd k x s m b HN HP HR HV HK HJ HM HD HT HC HB.
  eapply condition_iff; eauto. exists true, "$KEY". split; [constructor|].
  pose proof (sa_key L m true "$KEY" k x HM eq_refl HJ HD) as HX.
  rewrite (status_text (GStr k) k s) in HX; auto; [constructor|]. apply fo_other; [discriminate|discriminate|constructor].
Qed.
Theorem value_condition : forall p method value ret c v kd k x t s m b, NumberSpec L ->
  prepares L p "jsonpath:$VALUE" method value ret c -> replaced p method value v -> plain_value v -> method_is method kd ->
  jp_prepare L "$.*" <> None -> m_raw m <> None -> m_raw_rel m = Some (GMapS [(k, x)]) -> go_value x -> found L x t -> t <> "<nil>" ->
  compared t s -> may_return L (NCond c) m b -> (b = true <-> satisfied L kd v s).
Proof.
  intros p method value ret c v kd k x t s m b HN HP HR HV HK HJ HM HD HG HF HT HC HB.
  eapply condition_iff; eauto. exists true, "$VALUE". split; [constructor|].
  pose proof (sa_value L m true "$VALUE" k x HM eq_refl HJ HD) as HX. rewrite (status_text x t s) in HX; auto.
Qed.

Lemma document_nonempty v d : document L v d -> d <> "".
Proof.
  intros HD ->. apply parse_iff in HD. unfold json_parse in HD. cbn in HD. discriminate HD.
Qed.
Theorem raw_key_condition : forall p method value ret c v kd k x d s m b, NumberSpec L ->
  prepares L p "jsonpath:$KEY" method value ret c -> replaced p method value v -> plain_value v -> method_is method kd ->
  m_raw m = None -> m_json_rel m = Some d -> document L (GMapS [(k, x)]) d ->
  compared k s -> may_return L (NCond c) m b -> (b = true <-> satisfied L kd v s).
Proof.
  intros p method value ret c v kd k x d s m b HN HP HR HV HK HM HD HT HC HB.
  eapply condition_iff; eauto. exists true, "$KEY". split; [constructor|].
  assert (HI : In "$KEY" ["$KEY"; "$VALUE"]) by (left; reflexivity).
  pose proof (sa_raw_entry L m true "$KEY" d HM HI HD (document_nonempty _ _ HT)) as HX.
  unfold entry_text in HX. apply parse_iff in HT. rewrite HT in HX. cbn [String.eqb Ascii.eqb Bool.eqb] in HX.
  apply status_iff in HC. rewrite HC in HX. exact HX.
Qed.
Theorem raw_value_condition : forall p method value ret c v kd k x d t s m b, NumberSpec L ->
  prepares L p "jsonpath:$VALUE" method value ret c -> replaced p method value v -> plain_value v -> method_is method kd ->
  m_raw m = None -> m_json_rel m = Some d -> document L (GMapS [(k, x)]) d -> encoded L x t ->
  compared t s -> may_return L (NCond c) m b -> (b = true <-> satisfied L kd v s).
Proof.
  intros p method value ret c v kd k x d t s m b HN HP HR HV HK HM HD HT HE HC HB.
  eapply condition_iff; eauto. exists true, "$VALUE". split; [constructor|].
  assert (HI : In "$VALUE" ["$KEY"; "$VALUE"]) by (right; left; reflexivity).
  pose proof (sa_raw_entry L m true "$VALUE" d HM HI HD (document_nonempty _ _ HT)) as HX.
  unfold entry_text in HX. apply parse_iff in HT. rewrite HT in HX. cbn [String.eqb Ascii.eqb Bool.eqb] in HX.
  apply parsed_go_value in HT. inversion HT as [| | | | | |? _ HL|]; subst. inversion HL as [|? ? HG _]; subst. cbn [snd] in HG.
  apply marshal_encoded in HE; [|exact HG]. rewrite HE in HX. apply status_iff in HC. rewrite HC in HX. exact HX.
Qed.
End WithLib.
