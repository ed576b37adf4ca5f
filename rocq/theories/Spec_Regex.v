(** Specification of the part of Go's regular expressions the engine relies on: meaning of a regular
    expression, and which pattern texts denote which expression. *)
From Coq Require Import List String Ascii Bool Arith.
From Verif Require Import Base GoFloat Types.
Import ListNotations.
Open Scope string_scope.

Inductive rx : Type :=
| REps
| RChr (f : ascii -> bool)
| RSeq (a b : rx)
| RAlt (a b : rx)
| RStar (a : rx)
| RBegin              (* ^ *)
| REnd.               (* $ *)

(** [mat r p s q]: [r] matches [s] when [p] precedes and [q] follows it *)
Inductive mat : rx -> string -> string -> string -> Prop :=
| mat_eps p q : mat REps p "" q
| mat_chr f c p q : f c = true -> mat (RChr f) p (String c "") q
| mat_seq a b p s t q : mat a p s (t ++ q) -> mat b (p ++ s) t q -> mat (RSeq a b) p (s ++ t) q
| mat_alt_l a b p s q : mat a p s q -> mat (RAlt a b) p s q
| mat_alt_r a b p s q : mat b p s q -> mat (RAlt a b) p s q
| mat_star_nil a p q : mat (RStar a) p "" q
| mat_star_cons a p s t q : mat a p s (t ++ q) -> mat (RStar a) (p ++ s) t q -> mat (RStar a) p (s ++ t) q
| mat_begin q : mat RBegin "" "" q
| mat_end p : mat REnd p "" "".

(** regexp.MatchString: some part of the text matches *)
Definition found (r : rx) (s : string) : Prop := exists p m q, s = p ++ m ++ q /\ mat r p m q.

(** ** Pattern texts *)
Definition newline : ascii := "010".
Definition metachars : list ascii :=
  ["\"; "."; "+"; "*"; "?"; "("; ")"; "|"; "["; "]"; "{"; "}"; "^"; "$"]%char.
(** a character that stands for itself *)
Definition plain_char (c : ascii) : Prop := ~ In c metachars /\ (nat_of_ascii c < 128)%nat.
Definition any_char : rx := RChr (fun c => negb (Ascii.eqb c newline)).
Definition lit (c : ascii) : rx := RChr (Ascii.eqb c).

Inductive atom_text : string -> rx -> Prop :=
| at_plain c : plain_char c -> atom_text (String c "") (lit c)
| at_class_dot : atom_text "[.]" (lit ".")
| at_escaped c : In c ["$"; "^"; "/"]%char -> atom_text (String "\" (String c "")) (lit c)
| at_dot : atom_text "." any_char
| at_dot_star : atom_text ".*" (RStar any_char)
| at_begin : atom_text "^" RBegin
| at_end : atom_text "$" REnd.

Inductive seq_text : string -> rx -> Prop :=
| st_nil : seq_text "" REps
| st_cons t r ts rs : atom_text t r -> seq_text ts rs ->
    seq_text (t ++ ts) (RSeq r rs).

Inductive alt_text : string -> rx -> Prop :=
| al_one t r : seq_text t r -> alt_text t r
| al_more t r ts rs : seq_text t r -> alt_text ts rs -> alt_text (t ++ "|" ++ ts) (RAlt r rs).

Inductive pattern_text : string -> rx -> Prop :=
| pt_alt t r : alt_text t r -> pattern_text t r
| pt_group t r : alt_text t r -> pattern_text ("(" ++ t ++ ")") r.

Fixpoint ascii_text (s : string) : Prop :=
  match s with EmptyString => True | String c s' => (nat_of_ascii c < 128)%nat /\ ascii_text s' end.

(** What the engine needs to know about the regexp package. *)
Definition RegexSpec (L : Lib) : Prop :=
  forall t r, pattern_text t r ->
    exists re, re_compile L t = Some re /\
      forall s, ascii_text s -> (re_match L re s = true <-> found r s).
