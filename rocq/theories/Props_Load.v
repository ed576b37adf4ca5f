(** C31-C33: loading of condition trees. *)
From Coq Require Import List String Ascii Bool Arith ZArith.
From Verif Require Import Base GoStr GoFloat Types Json StrUtils Validate Prepare Parse Marshal Lifecycle
  Spec_Tree Spec_Leaf Spec_Validate Spec_Load Load_proofs Load_order RefLib RefLib_facts Samples Leaf_samples.
Import ListNotations.
Open Scope string_scope.

(** ** C31 *)
(** [wrapped], [restyled] (Spec_Load) *)
Theorem C31_wrappers : forall L ord v w t, is_map v -> wrapped v w ->
  parse_conditions_tree L ord w t = parse_conditions_tree L ord v t.
Proof. exact wrapper_transparent. Qed.
Print Assumptions C31_wrappers.

Theorem C31_styles : forall L ord v v' t, restyled L v v' -> parse_conditions_tree L ord v t = parse_conditions_tree L ord v' t.
Proof. exact style_irrelevant. Qed.
Print Assumptions C31_styles.

Definition cond_value (att method value : string) : iface :=
  GMapS [("attribute", GStr att); ("method", GStr method); ("value", GStr value)].
Definition cond_yaml (att method value : string) : iface :=
  GMapI [(GStr "attribute", GStr att); (GStr "method", GStr method); (GStr "value", GStr value)].
(** what was loaded: the attributes of the conditions in order *)
Fixpoint attributes (n : node RefLib) : list string :=
  match n with
  | NAnd ns => ("AND" :: flat_map attributes ns)%list
  | NOr ns => ("OR" :: flat_map attributes ns)%list
  | NNot n => ("NOT" :: attributes n)%list
  | NQuant QAny a n => ("ANY" :: a_parent a :: attributes n)%list
  | NQuant QAll a n => ("ALL" :: a_parent a :: attributes n)%list
  | NCond c => [c_attr c]
  | _ => []
  end.
Definition loads_as (ord : order) (v : iface) : option (list string) :=
  match parse_conditions_tree RefLib ord v 0 with (Ok n, _) => Some (attributes n) | _ => None end.
Example C31_case :
  let v := cond_value "domain" "EQ" "x" in
  let w := GArr [GMapS [("conditionsTree", GMapI [(GStr "condition", v)])]] in
  let y := GMapS [("AND", GArr [v; GMapS [("NOT", v)]])] in
  let z := GMapI [(GStr "AND", GArr [cond_yaml "domain" "EQ" "x"; GMapI [(GStr "NOT", cond_yaml "domain" "EQ" "x")]])] in
  wrapped v w /\ restyled RefLib y z /\ loads_as in_order v = Some ["domain"] /\ loads_as in_order w = Some ["domain"] /\
  loads_as in_order y = Some ["AND"; "domain"; "NOT"; "domain"] /\ loads_as in_order z = Some ["AND"; "domain"; "NOT"; "domain"].
Proof.
  cbv zeta. split; [apply wr_array, wr_keys, uk_json; [simpl; auto|]; apply uk_yaml; [simpl; auto|]; apply uk_here|].
  assert (HC : restyled RefLib (cond_value "domain" "EQ" "x") (cond_yaml "domain" "EQ" "x")).
  { apply rs_yaml; [repeat constructor; simpl; intuition discriminate|]. repeat constructor. }
  split; [|repeat split; vm_compute; reflexivity].
  apply rs_yaml; [repeat constructor; simpl; tauto|]. constructor; [|constructor]. split; [reflexivity|]. split; [simpl; intuition discriminate|].
  apply rs_array. constructor; [exact HC|]. constructor; [|constructor].
  apply rs_yaml; [repeat constructor; simpl; tauto|]. constructor; [|constructor]. split; [reflexivity|]. split; [simpl; intuition discriminate|exact HC].
Qed.
(** the keyword "conditions" is not transparent over a condition *)
Example C31_conditions_refuted :
  loads_as in_order (cond_value "domain" "EQ" "x") = Some ["domain"] /\ loads_as in_order (GMapS [("conditions", cond_value "domain" "EQ" "x")]) = None.
Proof. split; vm_compute; reflexivity. Qed.

(** ** C32 *)
(** [loaded] (Spec_Load); [go_value]: each key of a map occurs once *)
Theorem C32_shape : forall L ord v t n t', fair ord -> go_value v -> parse_conditions_tree L ord v t = (Ok n, t') -> loaded L n.
Proof. intros L ord v t n t' HF HG. exact (tree_loaded L ord HF v t n t' HG). Qed.
Print Assumptions C32_shape.

(** one child per item of an array, in order; NOT keeps the last *)
Theorem C32_array : forall L ord k l t n t', In k ["AND"; "OR"; "NOT"] ->
  parse_conditions_tree L ord (GMapS [(k, GArr l)]) t = (Ok n, t') ->
  exists ns, Forall2 (fun x n => exists u u', parse_conditions_tree L ord x u = (Ok n, u')) l ns /\
    match k with "AND" => n = NAnd ns | "OR" => n = NOr ns | _ => n = NNot (last ns NNil) end.
Proof. intros L ord k l t n t' HK. exact (array_of L ord k l "" t n t' HK ltac:(simpl; auto)). Qed.
Print Assumptions C32_array.

Example C32_case :
  let c a := cond_value a "EQ" "x" in
  let q := GMapS [("ANY", GMapS [("parentJsonpathAttribute", GStr "jsonpath:$.a"); ("condition", cond_value "jsonpath:$RELATIVE.b" "EQ" "x")])] in
  loads_as in_order (GMapS [("AND", GArr [c "domain"; c "encryptionType"; GMapS [("NOT", GArr [c "domain"; q])]])]) =
    Some ["AND"; "domain"; "encryptionType"; "NOT"; "ANY"; "$.a"; "jsonpath:$RELATIVE.b"] /\
  loads_as in_order (GMapS [("ANY", GMapS [("parentJsonpathAttribute", GStr "$.a"); ("condition", c "domain")])]) = None.
Proof. split; vm_compute; reflexivity. Qed.

(** ** C33 *)
(** [single] (Spec_Load): no ANY or ALL map has two keys that hold a condition *)
Theorem C33_deterministic : forall L ord ord' v t t' n, fair ord -> fair ord' -> go_value v -> single v ->
  (fst (parse_conditions_tree L ord v t) = Ok n <-> fst (parse_conditions_tree L ord' v t') = Ok n).
Proof. intros L ord ord' v t t' n HF HF' HG HS. split; apply loading_order; auto. Qed.
Print Assumptions C33_deterministic.

Definition two_inner : iface :=
  GMapS [("ANY", GMapS [("parentJsonpathAttribute", GStr "jsonpath:$.a"); ("condition", cond_value "domain" "EQ" "x");
                        ("AND", cond_value "encryptionType" "EQ" "x")])].
Theorem C33_two_inner_refuted : exists v n n', go_value v /\
  fst (parse_conditions_tree RefLib in_order v 0) = Ok n /\ fst (parse_conditions_tree RefLib reversed v 0) = Ok n' /\ n <> n'.
Proof.
  exists two_inner.
  assert (H1 : loads_as in_order two_inner = Some ["ANY"; "$.a"; "AND"; "encryptionType"]) by (vm_compute; reflexivity).
  assert (H2 : loads_as reversed two_inner = Some ["ANY"; "$.a"; "domain"]) by (vm_compute; reflexivity).
  unfold loads_as in H1, H2. destruct (parse_conditions_tree RefLib in_order two_inner 0) as [[n| |] t]; try discriminate.
  destruct (parse_conditions_tree RefLib reversed two_inner 0) as [[n'| |] t']; try discriminate.
  exists n, n'. split; [|split; [reflexivity|split; [reflexivity|intros ->; congruence]]].
  unfold two_inner, cond_value. repeat constructor; simpl; intuition discriminate.
Qed.
Print Assumptions C33_two_inner_refuted.

Example C33_case : exists v, go_value v /\ single v /\
  loads_as in_order v = Some ["ANY"; "$.a"; "domain"] /\ loads_as reversed v = Some ["ANY"; "$.a"; "domain"].
Proof.
  exists (GMapS [("ANY", GMapS [("parentJsonpathAttribute", GStr "jsonpath:$.a"); ("condition", cond_value "domain" "EQ" "x")])]).
  split; [unfold cond_value; repeat constructor; simpl; intuition discriminate|]. split; [|split; vm_compute; reflexivity].
  unfold cond_value. constructor.
  - assert (HV : forall m : list (string * iface), forallb (fun k => negb (is_any k ["ANY"; "ALL"])) (keys m) = true ->
      Forall (fun kv => single (snd kv)) m -> single (GMapS m)).
    { intros m HK HS. constructor; auto. intros k x HI HA. rewrite forallb_forall in HK.
      assert (HX : In k (keys m)) by (apply in_map_iff; exists (k, x); auto). apply HK in HX. apply is_any_in in HA. rewrite HA in HX. discriminate. }
    constructor; [|constructor]. cbn [snd]. apply HV; [reflexivity|]. constructor; [constructor|]. constructor; [|constructor]. cbn [snd].
    apply HV; [reflexivity|]. repeat constructor.
  - intros k x [E|[]] _. injection E; intros <- <-. split; [|discriminate]. intros m k1 k2 Em. injection Em; intros <-. unfold inner_key. simpl.
    intuition (subst; congruence).
Qed.
