(** Specification of what ANY and ALL range over when the message carries raw bytes, and of the situations in which
    evaluation on raw bytes panics. *)
From Coq Require Import List String Ascii Bool Arith ZArith.
From Verif Require Import Base GoStr GoFloat Types Json Spec_Tree Spec_Extra Spec_Glob Spec_Leaf Spec_Names Tree_laws Spec_Panic.
Import ListNotations.
Open Scope string_scope.

(** ** Objects in a text, counting braces only *)
(** opening braces less closing braces *)
Fixpoint balance (s : string) : Z :=
  match s with
  | EmptyString => 0
  | String c s => (if Ascii.eqb c "{" then 1 else if Ascii.eqb c "}" then -1 else 0) + balance s
  end%Z.
(** the braces close for the first time at the end *)
Definition piece (o : string) : Prop :=
  starts "{" o /\ balance o = 0%Z /\ forall a b, o = a ++ b -> a <> "" -> b <> "" -> balance a <> 0%Z.
(** no brace opens where the braces are balanced, and they are at the end *)
Definition gap (g : string) : Prop := balance g = 0%Z /\ forall a b, g = a ++ "{" ++ b -> balance a <> 0%Z.
Inductive pieces : string -> list string -> Prop :=
| pi_none u : (forall g o r, u = g ++ o ++ r -> gap g -> ~ piece o) -> pieces u []
| pi_next g o u os : gap g -> piece o -> pieces u os -> pieces (g ++ o ++ u) (o :: os).

(** ** Texts with parts exchanged *)
(** [new] for the first [w] *)
Inductive first_swapped (w new s : string) : string -> Prop :=
| fs_absent : ~ occurs w s -> first_swapped w new s s
| fs_first a b : s = a ++ w ++ b -> (forall a' b', s = a' ++ w ++ b' -> (String.length a <= String.length a')%nat) ->
    first_swapped w new s (a ++ new ++ b).
(** [new] for each [w] *)
Definition each_swapped (w new s t : string) : Prop :=
  exists parts, Forall (fun part => ~ occurs w part) parts /\ s = String.concat w parts /\ t = String.concat new parts.

Section WithLib.
Variable L : Lib.

(** ** What the parent paths find *)
(** the path as it is asked of the document *)
Definition raw_path (path q : string) : Prop :=
  exists p1 p2 p3, first_swapped "$RELATIVE." "$." path p1 /\ first_swapped "$KEY." "$." p1 p2 /\ first_swapped "$VALUE." "$." p2 p3 /\
    ((p3 = "$RELATIVE*" /\ q = "$*") \/ (p3 <> "$RELATIVE*" /\ q = p3)).
(** the current element, or the whole document, and what to ask of it *)
Definition raw_asked (m : message) (path : string) (d : option string) (q : string) : Prop :=
  (refers_to_element path /\ d = m_json_rel m /\ raw_path path q) \/ (~ refers_to_element path /\ d = m_json m /\ q = path).
Definition raw_found (a : aanode L) (m : message) (rs : list (option string)) : Prop :=
  exists items, comma_items (a_parent a) items /\
    Forall2 (fun path r => exists d q, raw_asked m path (Some d) q /\ r = fetch L d q) items rs.
(** the texts found, with commas between them *)
Definition joined (rs : list (option string)) : string :=
  String.concat "," (filter (fun t => negb (String.eqb t "")) (flat_map (fun r => match r with Some t => [t] | None => [] end) rs)).

(** arrays in an array are opened, once; [None]: a doubled bracket remains *)
Inductive opened (data : string) : option string -> Prop :=
| op_short : (String.length data < 2)%nat -> opened data (Some data)
| op_flat : (2 <= String.length data)%nat -> ugly L data <> "" -> ugly L data <> "[" -> ~ starts "[[" (ugly L data) ->
    opened data (Some (ugly L data))
| op_nested rest u d : (2 <= String.length data)%nat -> ugly L data = "[[" ++ rest -> first_swapped "]]" "]" ("[" ++ rest) u ->
    each_swapped "],[" "," u d -> ~ occurs "[[" d -> ~ occurs "]]" d -> opened data (Some d)
| op_deep rest u d : (2 <= String.length data)%nat -> ugly L data = "[[" ++ rest -> first_swapped "]]" "]" ("[" ++ rest) u ->
    each_swapped "],[" "," u d -> occurs "[[" d \/ occurs "]]" d -> opened data None.

(** the texts ANY and ALL range over; [None]: an error, and both are false *)
Inductive raw_elements (a : aanode L) (m : message) : option (list string) -> Prop :=
| rw_missing rs : raw_found a m rs -> last rs None = None -> raw_elements a m None
| rw_deep rs t : raw_found a m rs -> last rs None = Some t -> opened (joined rs) None -> raw_elements a m None
| rw_pieces rs t u os : raw_found a m rs -> last rs None = Some t -> opened (joined rs) (Some u) -> ~ starts "{" u -> pieces u os ->
    raw_elements a m (Some os)
| rw_entries rs t u obj es ts : raw_found a m rs -> last rs None = Some t -> opened (joined rs) (Some u) -> starts "{" u ->
    json_parse L u = Some (GMapS obj) -> entries obj es -> Forall2 (fun e t => json_marshal L e = Some t) es ts ->
    raw_elements a m (Some ts)
| rw_unprintable rs t u obj es e : raw_found a m rs -> last rs None = Some t -> opened (joined rs) (Some u) -> starts "{" u ->
    json_parse L u = Some (GMapS obj) -> entries obj es -> In e es -> json_marshal L e = None -> raw_elements a m None
| rw_broken rs t u : raw_found a m rs -> last rs None = Some t -> opened (joined rs) (Some u) -> starts "{" u ->
    (forall obj, json_parse L u <> Some (GMapS obj)) -> raw_elements a m None.

(** ** Panics *)
Inductive raw_condition_cause (c : cond L) (m : message) : Prop :=
| rq_field : ~ starts "jsonpath:" (og_attr (c_orig c)) -> condition_cause L c m -> raw_condition_cause c m
| rq_number k t y : starts "jsonpath:" (og_attr (c_orig c)) -> method_is (og_method (c_orig c)) k -> In k [KEq; KNeq; KNe] ->
    not_number L (og_value (c_orig c)) -> sees_raw L (c_jp c) m (Present t) -> quantity L t y -> raw_condition_cause c m
| rq_return rets name path : starts "jsonpath:" (og_attr (c_orig c)) -> r_orig (c_ret c) = Some rets -> In (name, path) rets ->
    (starts "jsonpath:$RELATIVE" path /\ m_json_rel m = None \/ ~ starts "jsonpath:$RELATIVE" path /\ m_json m = None) ->
    may_return L (NCond (bare L c)) m true -> raw_condition_cause c m.

Inductive raw_parent_cause (a : aanode L) (m : message) : Prop :=
| rp_no_document items path q : comma_items (a_parent a) items -> In path items -> raw_asked m path None q -> raw_parent_cause a m
| rp_compacted rs t : raw_found a m rs -> last rs None = Some t -> (2 <= String.length (joined rs))%nat ->
    ugly L (joined rs) = "" \/ ugly L (joined rs) = "[" -> raw_parent_cause a m.

(** the evaluation of a tree reaches such a condition or path *)
Inductive raw_crash : node L -> message -> Prop :=
| rk_condition c m : raw_condition_cause c m -> raw_crash (NCond c) m
| rk_not n m : raw_crash n m -> raw_crash (NNot n) m
| rk_and before n after m : Forall (fun n' => may_return L n' m true) before -> raw_crash n m ->
    raw_crash (NAnd (before ++ n :: after)%list) m
| rk_or before n after m : Forall (fun n' => exists b, may_return L n' m b) before -> raw_crash n m ->
    raw_crash (NOr (before ++ n :: after)%list) m
| rk_parent q a n m : raw_parent_cause a m -> raw_crash (NQuant q a n) m
| rk_all a n m before t after : raw_elements a m (Some (before ++ t :: after)%list) ->
    Forall (fun t' => may_return L n (set_json_rel m (Some t')) true) before ->
    raw_crash n (set_json_rel m (Some t)) -> raw_crash (NQuant QAll a n) m
| rk_any a n m before t after : raw_elements a m (Some (before ++ t :: after)%list) ->
    Forall (fun t' => may_return L n (set_json_rel m (Some t')) false \/
                      (declared L a <> [] /\ may_return L n (set_json_rel m (Some t')) true)) before ->
    raw_crash n (set_json_rel m (Some t)) -> raw_crash (NQuant QAny a n) m.
End WithLib.
