(** Specification of name patterns: comma separated lists of globs. *)
From Coq Require Import List String Ascii Bool Arith.
From Verif Require Import Base GoFloat Types Spec_Regex.
Import ListNotations.
Open Scope string_scope.

Fixpoint all_chars (P : ascii -> Prop) (s : string) : Prop :=
  match s with EmptyString => True | String c s' => P c /\ all_chars P s' end.

(** [*]: any sequence, [?]: any single character (in both cases other than a newline); every other
    character stands for itself *)
Inductive glob : string -> string -> Prop :=
| g_nil : glob "" ""
| g_star p s1 s2 : all_chars (fun c => c <> newline) s1 -> glob p s2 -> glob (String "*" p) (s1 ++ s2)
| g_any c p s : c <> newline -> glob p s -> glob (String "?" p) (String c s)
| g_lit c p s : c <> "*"%char -> c <> "?"%char -> glob p s -> glob (String c p) (String c s).

(** characters allowed in patterns: ASCII, without those with a special meaning in regular
    expressions other than [. * ? $ ^] *)
Definition pattern_char (c : ascii) : Prop :=
  (nat_of_ascii c < 128)%nat /\ ~ In c ["\"; "+"; "("; ")"; "|"; "["; "]"; "{"; "}"]%char.
Definition pattern_ok (s : string) : Prop := all_chars pattern_char s.

(** the items of a comma separated text *)
Definition comma_items (s : string) (items : list string) : Prop :=
  items <> [] /\ Forall (all_chars (fun c => c <> ","%char)) items /\ s = String.concat "," items.

Definition without_spaces (s : string) : string :=
  string_of_list_ascii (filter (fun c => negb (Ascii.eqb c " ")) (list_ascii_of_string s)).

(** white space at both ends removed: the characters of the Unicode property White_Space, in UTF-8 *)
Definition byte_text (l : list nat) : string := string_of_list_ascii (map ascii_of_nat l).
Definition white_chars : list string :=
  map byte_text ([[32]; [9]; [10]; [11]; [12]; [13]; [194; 133]; [194; 160]; [225; 154; 128];
              [226; 128; 168]; [226; 128; 169]; [226; 128; 175]; [226; 129; 159]; [227; 128; 128]] ++
             map (fun n => [226; 128; n]) (seq 128 11))%list.
Inductive white : string -> Prop :=
| white_end : white ""
| white_more w s : In w white_chars -> white s -> white (w ++ s).
Definition trimmed (s t : string) : Prop :=
  exists a b, s = a ++ t ++ b /\ white a /\ white b /\
    (forall w t', In w white_chars -> t <> w ++ t') /\ (forall w t', In w white_chars -> t <> t' ++ w).

(** a workload or host name is accepted by a sender/receiver name *)
Definition name_accepts (pattern name : string) : Prop :=
  exists items item, comma_items pattern items /\ In item items /\ glob (without_spaces item) name.

(** a method, path or port is accepted by an operation or resource pattern *)
Definition list_accepts (pattern text : string) : Prop :=
  exists items item t, comma_items pattern items /\ In item items /\ trimmed item t /\ glob t text.

Definition operation_accepts (operation method : string) : Prop :=
  operation = "*"
  \/ (In operation ["write"; "WRITE"] /\ In method ["POST"; "PUT"; "DELETE"])
  \/ (In operation ["read"; "READ"] /\ In method ["GET"; "HEAD"; "OPTIONS"; "TRACE"; "read"; "READ"])
  \/ (~ In operation ["*"; "write"; "WRITE"; "read"; "READ"] /\ list_accepts operation method).

(** membership lists of IN and NIN *)
Definition plain_item (s : string) : Prop := all_chars (fun c => plain_char c /\ c <> ","%char) s.
Definition list_value (items : list string) : string := "[" ++ String.concat "," items ++ "]".
