(** Names and patterns that are UTF-8 texts: strings are sequences of bytes, and [?] and the dot of a regular
    expression stand for one encoded character, not for one byte. *)
From Coq Require Import List String Ascii Bool Arith.
From Verif Require Import Base GoStr GoFloat Types Spec_Regex Spec_Glob.
Import ListNotations.
Open Scope string_scope.

(** ** UTF-8: the well-formed byte sequences (Unicode standard, table 3-7) *)
Definition within (range : nat * nat) (c : ascii) : bool := ((fst range <=? nat_of_ascii c) && (nat_of_ascii c <=? snd range))%nat.
Fixpoint fits (ranges : list (nat * nat)) (s : string) : bool :=
  match ranges, s with
  | [], EmptyString => true
  | range :: ranges', String c s' => within range c && fits ranges' s'
  | _, _ => false
  end.
Definition several_bytes : list (list (nat * nat)) :=
  let tail := (128, 191) in
  [[(194, 223); tail]; [(224, 224); (160, 191); tail]; [(225, 236); tail; tail]; [(237, 237); (128, 159); tail]; [(238, 239); tail; tail];
   [(240, 240); (144, 191); tail; tail]; [(241, 243); tail; tail; tail]; [(244, 244); (128, 143); tail; tail]].
Definition utf8_char (s : string) : Prop := exists ranges, In ranges ([(0, 127)] :: several_bytes) /\ fits ranges s = true.
Inductive utf8 : string -> Prop :=
| u_nil : utf8 ""
| u_cons ch s : utf8_char ch -> utf8 s -> utf8 (ch ++ s).

(** ** Regular expressions on bytes; the dot is any character but a newline *)
Definition ranges_rx (ranges : list (nat * nat)) : rx := fold_right (fun range r => RSeq (RChr (within range)) r) REps ranges.
Definition any_rune : rx :=
  fold_right (fun ranges r => RAlt (ranges_rx ranges) r) (RChr (fun _ => false)) ([(0, 9)] :: [(11, 127)] :: several_bytes).

Inductive atom_text8 : string -> rx -> Prop :=
| at8_plain c : ~ In c metachars -> atom_text8 (String c "") (lit c)
| at8_class_dot : atom_text8 "[.]" (lit ".")
| at8_escaped c : In c ["$"; "^"; "/"]%char -> atom_text8 (String "\" (String c "")) (lit c)
| at8_dot : atom_text8 "." any_rune
| at8_dot_star : atom_text8 ".*" (RStar any_rune)
| at8_begin : atom_text8 "^" RBegin
| at8_end : atom_text8 "$" REnd.
Inductive seq_text8 : string -> rx -> Prop :=
| st8_nil : seq_text8 "" REps
| st8_cons t r ts rs : atom_text8 t r -> seq_text8 ts rs -> seq_text8 (t ++ ts) (RSeq r rs).
Inductive alt_text8 : string -> rx -> Prop :=
| al8_one t r : seq_text8 t r -> alt_text8 t r
| al8_more t r ts rs : seq_text8 t r -> alt_text8 ts rs -> alt_text8 (t ++ "|" ++ ts) (RAlt r rs).
Inductive pattern_text8 : string -> rx -> Prop :=
| pt8_alt t r : alt_text8 t r -> pattern_text8 t r
| pt8_group t r : alt_text8 t r -> pattern_text8 ("(" ++ t ++ ")") r.

(** What the engine needs to know about the regexp package when patterns and texts are UTF-8. *)
Definition Utf8RegexSpec (L : Lib) : Prop :=
  forall t r, pattern_text8 t r -> utf8 t ->
    exists re, re_compile L t = Some re /\ forall s, utf8 s -> (re_match L re s = true <-> found r s).

(** ** Patterns *)
(** [*]: any sequence of characters, [?]: any single character (other than newlines); every other byte stands for itself *)
Inductive glob8 : string -> string -> Prop :=
| g8_nil : glob8 "" ""
| g8_star p s1 s2 : utf8 s1 -> all_chars (fun c => c <> newline) s1 -> glob8 p s2 -> glob8 (String "*" p) (s1 ++ s2)
| g8_any ch p s : utf8_char ch -> ch <> String newline "" -> glob8 p s -> glob8 (String "?" p) (ch ++ s)
| g8_lit c p s : c <> "*"%char -> c <> "?"%char -> glob8 p s -> glob8 (String c p) (String c s).

Definition pattern8 (s : string) : Prop :=
  utf8 s /\ all_chars (fun c => ~ In c ["\"; "+"; "("; ")"; "|"; "["; "]"; "{"; "}"]%char) s.

Definition bytes (l : list nat) : string := byte_text l.

Definition name_accepts8 (pattern name : string) : Prop :=
  exists items item, comma_items pattern items /\ In item items /\ glob8 (without_spaces item) name.
Definition list_accepts8 (pattern text : string) : Prop :=
  exists items item t, comma_items pattern items /\ In item items /\ trimmed item t /\ glob8 t text.
Definition operation_accepts8 (operation method : string) : Prop :=
  operation = "*"
  \/ (In operation ["write"; "WRITE"] /\ In method ["POST"; "PUT"; "DELETE"])
  \/ (In operation ["read"; "READ"] /\ In method ["GET"; "HEAD"; "OPTIONS"; "TRACE"; "read"; "READ"])
  \/ (~ In operation ["*"; "write"; "WRITE"; "read"; "READ"] /\ list_accepts8 operation method).
(** items of IN and NIN *)
Definition plain_item8 (s : string) : Prop := utf8 s /\ all_chars (fun c => ~ In c metachars /\ c <> ","%char) s.
