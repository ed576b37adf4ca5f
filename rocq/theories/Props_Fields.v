(** C61: reading one message from YAML. *)
From Coq Require Import List String Ascii Bool ZArith.
From Verif Require Import Base GoStr GoFloat Types Json Messages Fields RefLib Samples Spec_Glob Spec_Tree Spec_Names Spec_Fields Fields_proofs Fields_bytes.
Import ListNotations.
Open Scope string_scope.

(** C61. YamlReadMessageAttributes counts the fields: a message is returned, with its resource type added, exactly when every key is known,
    neither a type nor a size of zero is given, and no label text has a letter or digit on both sides of a colon; otherwise there is an error. *)
Theorem C61_counted L es m : describes L es m ->
  (yaml_read_message L (Some m) (yaml_text es) = Ok (add_resource_type m) <-> countable es) /\
  (yaml_read_message L (Some m) (yaml_text es) = Ok (add_resource_type m) \/ yaml_read_message L (Some m) (yaml_text es) = Err).
Proof. exact (count_verdict L es m). Qed.
Print Assumptions C61_counted.

(** a key that is not known is always an error *)
Theorem C61_unknown L es m k v : describes L es m -> In (k, v) es -> ~ In k known_keys -> yaml_read_message L (Some m) (yaml_text es) = Err.
Proof. exact (unknown_refused L es m k v). Qed.
Print Assumptions C61_unknown.

(** "A text with only known keys is accepted" is false: a type, a size of zero and labels are refused *)
Theorem C61_known_refuted L es : In es [[("request_type", "http")]; [("request_size", "0")]; [("sender_labels", "app:web")]] ->
  (forall k v, In (k, v) es -> In k known_keys) /\ exists m, describes L es m /\ yaml_read_message L (Some m) (yaml_text es) = Err.
Proof. exact (read_refused L es). Qed.
Print Assumptions C61_known_refuted.

(** the text of the bytes of a message while the fields are counted: RFC 4648, which keeps different bytes apart.  [encodes] (Fields_bytes) *)
Theorem C61_bytes s : encodes s (base64 s) /\ forall s', base64 s' = base64 s -> s' = s.
Proof. split; [exact (base64_encodes s)|]. intros s' E. apply (encodes_inj s' (base64 s')); [apply base64_encodes|]. rewrite E. apply base64_encodes. Qed.
Print Assumptions C61_bytes.

(** ** Concrete cases *)
Example C61_bytes_case : base64 "light work." = "bGlnaHQgd29yay4=" /\ base64 "Ma" = "TWE=" /\ base64 "M" = "TQ==".
Proof. vm_compute. auto. Qed.
Definition sample_entries : list (string * string) :=
  [("message_id", "id1"); ("sender_service", "front.end"); ("receiver_service", "back.end"); ("receiver_ip", "10.9.9.9"); ("request_size", "100");
   ("sender_ip", "10.1.2.3"); ("receiver_port", "80"); ("request_path", "/a/b c"); ("request_method", "GET"); ("encryption_version", "1")].
Definition sample_read : message :=
  mkMessage "10.1.2.3" "" "" "10.9.9.9" "80" "" "" "/a/b c" "" "GET" 100 "" "" "" "id1" "front.end" "back.end" "" "" "" ""
    (Some f_one) None None None None "" f_zero f_zero f_zero [] [] [] [].
Example C61_read : describes RefLib sample_entries sample_read /\ countable sample_entries /\
  yaml_read_message RefLib (Some sample_read) (yaml_text sample_entries) = Ok (add_resource_type sample_read).
Proof.
  assert (HD : describes RefLib sample_entries sample_read) by (apply describesb_ok; vm_compute; reflexivity).
  assert (E : yaml_read_message RefLib (Some sample_read) (yaml_text sample_entries) = Ok (add_resource_type sample_read)) by (vm_compute; reflexivity).
  split; [exact HD|]. split; [apply (proj1 (C61_counted _ _ _ HD)); exact E|exact E].
Qed.
Example C61_misspelt : describes RefLib (("request_metod", "GET") :: sample_entries) sample_read /\ ~ In "request_metod" known_keys /\
  yaml_read_message RefLib (Some sample_read) (yaml_text (("request_metod", "GET") :: sample_entries)) = Err.
Proof.
  assert (HD : describes RefLib (("request_metod", "GET") :: sample_entries) sample_read) by (apply describesb_ok; vm_compute; reflexivity).
  assert (HK : ~ In "request_metod" known_keys) by (simpl; intro H; repeat (destruct H as [H|H]; [discriminate H|]); exact H).
  split; [exact HD|]. split; [exact HK|]. apply (C61_unknown _ _ _ _ _ HD (or_introl eq_refl) HK).
Qed.
