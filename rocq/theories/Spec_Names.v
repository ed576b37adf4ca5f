(** Specification of field names in Mongo queries. *)
From Coq Require Import List String Ascii Bool Arith ZArith.
From Verif Require Import Base GoStr Spec_Quotes.
Import ListNotations.
Open Scope string_scope.

(** occurrences of a character *)
Definition occurrences (c : ascii) (s : string) : nat := count_occ ascii_dec (list_ascii_of_string s) c.

(** [t] is [s] without quotes and closing brackets, opening brackets being dots *)
Inductive field_text : string -> string -> Prop :=
| ft_end : field_text "" ""
| ft_drop c s t : quote c \/ c = "]"%char -> field_text s t -> field_text (String c s) t
| ft_bracket s t : field_text s t -> field_text (String "[" s) (String "." t)
| ft_keep c s t : ~ quote c -> c <> "]"%char -> c <> "["%char -> field_text s t -> field_text (String c s) (String c t).

(** [t] is [s] with runs of dots shortened, none of them removed *)
Inductive dots_shrunk : string -> string -> Prop :=
| ds_end : dots_shrunk "" ""
| ds_keep c s t : dots_shrunk s t -> dots_shrunk (String c s) (String c t)
| ds_drop s t : dots_shrunk (String "." s) t -> dots_shrunk (String "." (String "." s)) t.

Definition occurs (w s : string) : Prop := exists a b, s = a ++ w ++ b.
