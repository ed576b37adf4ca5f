(** Specification of the removal of quotes around path segments. *)
From Coq Require Import List String Ascii Bool Arith ZArith.
From Verif Require Import Base GoStr Spec_Glob.
Import ListNotations.
Open Scope string_scope.

Definition quote (c : ascii) : Prop := c = sq \/ c = dq.
(** a dot directly followed by a quote *)
Definition dot_quote (s : string) : Prop := exists a q b, quote q /\ s = a ++ String "." (String q b).
(** a quoted name: no quotes inside and no dot at the end *)
Definition segment_name (name : string) : Prop := all_chars (fun c => ~ quote c) name /\ ~ (exists a, name = a ++ ".").

(** [unquoted after_dot s s']: [s'] is [s] without the quotes of the segments .'name' and ."name";
    no other quote follows a dot *)
Inductive unquoted : bool -> string -> string -> Prop :=
| uq_end d : unquoted d "" ""
| uq_char d c s s' : (d = true -> ~ quote c) -> unquoted (Ascii.eqb c ".") s s' -> unquoted d (String c s) (String c s')
| uq_name q name s s' : quote q -> segment_name name -> unquoted false s s' ->
    unquoted true (String q (name ++ String q s)) (name ++ s').
(** the same with no empty name *)
Inductive unquoted_names : bool -> string -> string -> Prop :=
| un_end d : unquoted_names d "" ""
| un_char d c s s' : (d = true -> ~ quote c) -> unquoted_names (Ascii.eqb c ".") s s' -> unquoted_names d (String c s) (String c s')
| un_name q name s s' : quote q -> name <> "" -> segment_name name -> unquoted_names false s s' ->
    unquoted_names true (String q (name ++ String q s)) (name ++ s').

(** the characters other than quotes *)
Inductive without_quotes : string -> string -> Prop :=
| wq_end : without_quotes "" ""
| wq_keep c s s' : ~ quote c -> without_quotes s s' -> without_quotes (String c s) (String c s')
| wq_drop c s s' : quote c -> without_quotes s s' -> without_quotes (String c s) s'.
(** a part of the characters, in order *)
Inductive subsequence : string -> string -> Prop :=
| ss_end : subsequence "" ""
| ss_keep c s s' : subsequence s s' -> subsequence (String c s) (String c s')
| ss_drop c s s' : subsequence s s' -> subsequence s (String c s').
