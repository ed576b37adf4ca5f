(** A library whose regular expressions read UTF-8: a small compiler for the patterns the engine builds. *)
From Coq Require Import List String Ascii Bool Arith Lia.
From Verif Require Import Base GoStr GoStr_facts GoFloat Types Spec_Regex Spec_Glob Ref_Regex Ref_Regex_proofs RefLib Spec_Utf8.
Import ListNotations.
Open Scope string_scope.

Definition meta (c : ascii) : bool := existsb (Ascii.eqb c) metachars.
Definition before (r : rx) (o : option (rx * option rx)) : option (rx * option rx) :=
  match o with Some (first, others) => Some (RSeq r first, others) | None => None end.
Definition together (x : rx * option rx) : rx := match x with (first, None) => first | (first, Some others) => RAlt first others end.
(** the first alternative and the others; [group]: a closing bracket is expected at the end *)
Fixpoint parse8 (group : bool) (s : string) : option (rx * option rx) :=
  match s with
  | EmptyString => if group then None else Some (REps, None)
  | String c s1 =>
    if Ascii.eqb c ")" then (if group && String.eqb s1 "" then Some (REps, None) else None)
    else if Ascii.eqb c "|" then option_map (fun x => (REps, Some (together x))) (parse8 group s1)
    else if Ascii.eqb c "^" then before RBegin (parse8 group s1)
    else if Ascii.eqb c "$" then before REnd (parse8 group s1)
    else if Ascii.eqb c "." then
      match s1 with
      | String d s2 => if Ascii.eqb d "*" then before (RStar any_rune) (parse8 group s2) else before any_rune (parse8 group s1)
      | EmptyString => before any_rune (parse8 group s1)
      end
    else if Ascii.eqb c "\" then
      match s1 with
      | String d s2 => if existsb (Ascii.eqb d) ["$"; "^"; "/"]%char then before (lit d) (parse8 group s2) else None
      | EmptyString => None
      end
    else if Ascii.eqb c "[" then
      match s1 with
      | String "." (String "]" s2) => before (lit ".") (parse8 group s2)
      | _ => None
      end
    else if meta c then None else before (lit c) (parse8 group s1)
  end.
Definition compile8 (t : string) : option rx :=
  option_map together (match t with String "(" s => parse8 true s | _ => parse8 false t end).

Definition Utf8Lib : Lib :=
  mkLib rx compile8 rx_match (list step) ref_jp_prepare ref_jp_query
    ref_js_get (ref_ugly_from false false)
    ref_parse_float ref_fmt_float ref_json_float (fun _ => "map[]")
    ref_parse_ip ref_parse_cidr ref_parse_time (fun s => s) (@Some rx).

Definition no_star (s : string) : Prop := forall s', s <> String "*" s'.
Lemma atom_no_star t r s : atom_text8 t r -> no_star (t ++ s).
Proof. intros H s' E. destruct H as [c HC| | c HC| | | |]; cbn in E; injection E; intros; subst; try discriminate. apply HC. cbn. tauto. Qed.
Lemma parse_atom8 g t r s : atom_text8 t r -> no_star s -> parse8 g (t ++ s) = before r (parse8 g s).
Proof.
  intros H HS. destruct H as [c HC| | c HC| | | |]; cbn [append]; try reflexivity.
  - assert (HN : meta c = false).
    { unfold meta. apply not_true_is_false. intro E. apply existsb_exists in E. destruct E as (x & HI & E). apply Ascii.eqb_eq in E. subst x. auto. }
    cbn [parse8]. rewrite HN. unfold meta, metachars in HN. cbn [existsb] in HN. repeat (apply orb_false_elim in HN; destruct HN as [? HN]).
    repeat match goal with H : Ascii.eqb c _ = false |- _ => rewrite H; clear H end. reflexivity.
  - cbn [parse8]. change (Ascii.eqb "\" ")") with false. cbn iota. cbn [Ascii.eqb Bool.eqb].
    assert (HE : existsb (Ascii.eqb c) ["$"; "^"; "/"]%char = true) by (apply existsb_exists; exists c; split; auto; apply Ascii.eqb_refl). rewrite HE. reflexivity.
  - cbn [parse8]. destruct s as [|d s]; [reflexivity|]. destruct (Ascii.eqb_spec d "*"); [subst; exfalso; eapply HS; reflexivity|]. reflexivity.
Qed.
Lemma seq_no_star t r s : seq_text8 t r -> no_star s -> no_star (t ++ s).
Proof. destruct 1; auto. intros _. rewrite append_assoc. eapply atom_no_star; eauto. Qed.
Lemma parse_seq8 g t r : seq_text8 t r -> forall s others, no_star s -> parse8 g s = Some (REps, others) -> parse8 g (t ++ s) = Some (r, others).
Proof.
  induction 1 as [|t r ts rs HA HS IH]; intros s others HN E; [exact E|]. rewrite append_assoc.
  rewrite (parse_atom8 g t r _ HA (seq_no_star _ _ _ HS HN)), (IH s others HN E). reflexivity.
Qed.
Lemma parse_alt8 g t r s : alt_text8 t r -> no_star s -> parse8 g s = Some (REps, None) -> option_map together (parse8 g (t ++ s)) = Some r.
Proof.
  intros H HN E. induction H as [t r H|t r ts rs H HA IH].
  - rewrite (parse_seq8 g t r H s None HN E). reflexivity.
  - rewrite append_assoc. destruct (parse8 g (ts ++ s)) as [x|] eqn:EX; [|discriminate]. injection IH as <-.
    rewrite (parse_seq8 g t r H (("|" ++ ts) ++ s) (Some (together x))); [reflexivity|intros s' E'; discriminate|].
    cbn [append parse8]. rewrite EX. reflexivity.
Qed.
Lemma alt_no_group t r : alt_text8 t r -> forall s, t <> String "(" s.
Proof.
  assert (HQ : forall t r, seq_text8 t r -> forall s rest, (forall x, rest <> String "(" x) -> t ++ rest <> String "(" s).
  { intros t0 r0 H s rest HR E. destruct H as [|t1 r1 ts rs HA HS]; [eapply HR; eauto|]. destruct HA as [c HC| | c HC| | | |]; cbn in E; injection E; intros; subst; try discriminate.
    apply HC. cbn. tauto. }
  intros H s E. destruct H as [t r H|t r ts rs H HA].
  - apply (HQ t r H s ""); [discriminate|]. rewrite append_nil_r. exact E.
  - apply (HQ t r H s ("|" ++ ts)); [discriminate|]. exact E.
Qed.
Theorem Utf8Lib_regex : Utf8RegexSpec Utf8Lib.
Proof.
  intros t r HT _. exists r. split; [|intros s _; apply rx_match_found]. change (re_compile Utf8Lib t) with (compile8 t). destruct HT as [t r H|t r H]; unfold compile8.
  - pose proof (alt_no_group t r H) as HG. pose proof (parse_alt8 false t r "" H) as HP. rewrite append_nil_r in HP. specialize (HP ltac:(discriminate) eq_refl).
    destruct t as [|c t]; [exact HP|]. destruct (Ascii.eqb_spec c "(") as [->|N]; [exfalso; eapply HG; reflexivity|].
    destruct c as [[] [] [] [] [] [] [] []]; solve [exact HP|congruence].
  - cbn [append]. apply (parse_alt8 true t r ")" H); [discriminate|reflexivity].
Qed.
