(** Specification of JSON texts: the grammar of RFC 8259 with the value each text denotes. *)
From Coq Require Import List String Ascii Bool Arith ZArith Permutation.
From Verif Require Import Base GoStr GoFloat Types Json Spec_Glob.
Import ListNotations.
Open Scope string_scope.

Definition space_char (c : ascii) : Prop := In (nat_of_ascii c) [32; 9; 10; 13]%nat.
Definition spaces (w : string) : Prop := all_chars space_char w.

(** ** Strings: [chars x s] the text [s] between quotes stands for [x] *)
Definition escapes : list (ascii * ascii) :=
  [(dq, dq); (bslash, bslash); ("/"%char, "/"%char); ("b"%char, "008"%char); ("f"%char, "012"%char);
   ("n"%char, "010"%char); ("r"%char, "013"%char); ("t"%char, "009"%char)].
(** the value of a hexadecimal digit, and the UTF-8 bytes of a code point *)
Definition hex_digits : list (string * nat) :=
  [("0", 0); ("1", 1); ("2", 2); ("3", 3); ("4", 4); ("5", 5); ("6", 6); ("7", 7); ("8", 8); ("9", 9);
   ("a", 10); ("b", 11); ("c", 12); ("d", 13); ("e", 14); ("f", 15);
   ("A", 10); ("B", 11); ("C", 12); ("D", 13); ("E", 14); ("F", 15)]%nat.
Definition hex (c : ascii) (n : nat) : Prop := In (String c "", n) hex_digits.
Definition byte (n : N) : ascii := ascii_of_N n.
Definition utf8_bytes (n : N) : string :=
  if (n <? 128)%N then String (byte n) ""
  else if (n <? 2048)%N then String (byte (192 + n / 64)) (String (byte (128 + n mod 64)) "")
  else if (n <? 65536)%N then String (byte (224 + n / 4096)) (String (byte (128 + (n / 64) mod 64)) (String (byte (128 + n mod 64)) ""))
  else String (byte (240 + n / 262144)) (String (byte (128 + (n / 4096) mod 64)) (String (byte (128 + (n / 64) mod 64)) (String (byte (128 + n mod 64)) ""))).
Definition code_point (a b c d : nat) : N := (4096 * N.of_nat a + 256 * N.of_nat b + 16 * N.of_nat c + N.of_nat d)%N.

(** UTF-16: the code units D800-DBFF followed by DC00-DFFF stand together for a code point from 2^16 on *)
Definition high_unit (n : N) : Prop := (55296 <= n < 56320)%N.
Definition low_unit (n : N) : Prop := (56320 <= n < 57344)%N.
Definition pair_point (n m : N) : N := (65536 + 1024 * (n - 55296) + (m - 56320))%N.
(** the escape \u of the code unit [n] *)
Definition unit_text (n : N) (t : string) : Prop :=
  exists h1 h2 h3 h4 a b c d, hex h1 a /\ hex h2 b /\ hex h3 c /\ hex h4 d /\ n = code_point a b c d /\
    t = String bslash (String "u" (String h1 (String h2 (String h3 (String h4 ""))))).
Definition low_follows (s : string) : Prop := exists n t r, low_unit n /\ unit_text n t /\ s = t ++ r.

Inductive chars : string -> string -> Prop :=
| cs_end : chars "" ""
| cs_plain c x s : (32 <= nat_of_ascii c)%nat -> c <> dq -> c <> bslash -> chars x s -> chars (String c x) (String c s)
| cs_escape e c x s : In (e, c) escapes -> chars x s -> chars (String c x) (String bslash (String e s))
| cs_unicode n t x s : unit_text n t -> ~ high_unit n -> ~ low_unit n -> chars x s -> chars (utf8_bytes n ++ x) (t ++ s)
| cs_pair n m t t' x s : unit_text n t -> unit_text m t' -> high_unit n -> low_unit m -> chars x s ->
    chars (utf8_bytes (pair_point n m) ++ x) (t ++ t' ++ s)
| cs_lone n t x s : unit_text n t -> low_unit n \/ high_unit n /\ ~ low_follows s -> chars x s ->
    chars (utf8_bytes 65533 ++ x) (t ++ s).

(** ** Numbers *)
Definition digit_char (c : ascii) : Prop := (48 <= nat_of_ascii c <= 57)%nat.
Definition digits (s : string) : Prop := s <> "" /\ all_chars digit_char s.
Definition int_text (s : string) : Prop := digits s /\ (s = "0" \/ ~ (exists r, s = String "0" r)).
Definition frac_text (s : string) : Prop := s = "" \/ exists d, digits d /\ s = "." ++ d.
Definition exp_text (s : string) : Prop :=
  s = "" \/ exists e sg d, In e ["e"; "E"] /\ In sg [""; "+"; "-"] /\ digits d /\ s = e ++ sg ++ d.
Definition number_text (s : string) : Prop :=
  exists sg i f e, In sg [""; "-"] /\ int_text i /\ frac_text f /\ exp_text e /\ s = sg ++ i ++ f ++ e.

Section WithLib.
Variable L : Lib.

(** ** Values.  Of a repeated key the last value counts; the key keeps its first place. *)
Definition object (kvs : list (string * iface)) : iface := GMapS (fold_left (fun acc kv => upsert (fst kv) (snd kv) acc) kvs []).
Inductive text : iface -> string -> Prop :=
| tx_null : text GNil "null"
| tx_true : text (GBool true) "true"
| tx_false : text (GBool false) "false"
| tx_string x s : chars x s -> text (GStr x) (dqs ++ s ++ dqs)
| tx_number s f : number_text s -> parse_float L s = Some f -> text (GFloat f) s
| tx_empty_array w : spaces w -> text (GArr []) ("[" ++ w ++ "]")
| tx_array vs s : elements vs s -> text (GArr vs) ("[" ++ s ++ "]")
| tx_empty_object w : spaces w -> text (GMapS []) ("{" ++ w ++ "}")
| tx_object kvs s : members kvs s -> text (object kvs) ("{" ++ s ++ "}")
with elements : list iface -> string -> Prop :=
| el_one v s w1 w2 : spaces w1 -> spaces w2 -> text v s -> elements [v] (w1 ++ s ++ w2)
| el_cons v s w1 w2 vs s' : spaces w1 -> spaces w2 -> text v s -> elements vs s' -> elements (v :: vs) (w1 ++ s ++ w2 ++ "," ++ s')
with members : list (string * iface) -> string -> Prop :=
| mb_one k ks v s w1 w2 w3 w4 : spaces w1 -> spaces w2 -> spaces w3 -> spaces w4 -> chars k ks -> text v s ->
    members [(k, v)] (w1 ++ (dqs ++ ks ++ dqs) ++ w2 ++ ":" ++ w3 ++ s ++ w4)
| mb_cons k ks v s w1 w2 w3 w4 kvs s' : spaces w1 -> spaces w2 -> spaces w3 -> spaces w4 -> chars k ks -> text v s -> members kvs s' ->
    members ((k, v) :: kvs) (w1 ++ (dqs ++ ks ++ dqs) ++ w2 ++ ":" ++ w3 ++ s ++ w4 ++ "," ++ s').
Scheme text_mind := Induction for text Sort Prop
with elements_mind := Induction for elements Sort Prop
with members_mind := Induction for members Sort Prop.
Combined Scheme json_mind from text_mind, elements_mind, members_mind.

(** a text between spaces *)
Definition document (v : iface) (s : string) : Prop := exists w1 t w2, spaces w1 /\ spaces w2 /\ text v t /\ s = w1 ++ t ++ w2.
End WithLib.

(** ** Values that print and parse back *)
Inductive sorted_keys {A} : list (string * A) -> Prop :=
| sk_nil : sorted_keys []
| sk_one e : sorted_keys [e]
| sk_cons a b l : String.ltb (fst a) (fst b) = true -> sorted_keys (b :: l) -> sorted_keys (a :: b :: l).

Inductive numberless : iface -> Prop :=
| nl_null : numberless GNil
| nl_bool b : numberless (GBool b)
| nl_str s : numberless (GStr s)
| nl_arr l : Forall numberless l -> numberless (GArr l)
| nl_map m : NoDup (keys m) -> Forall (fun e => numberless (snd e)) m -> numberless (GMapS m).

(** [v'] is [v] with the entries of its objects listed by increasing key *)
Inductive key_order : iface -> iface -> Prop :=
| ko_null : key_order GNil GNil
| ko_bool b : key_order (GBool b) (GBool b)
| ko_str s : key_order (GStr s) (GStr s)
| ko_arr l l' : Forall2 key_order l l' -> key_order (GArr l) (GArr l')
| ko_map m m' m2 : Forall2 (fun a b => fst a = fst b /\ key_order (snd a) (snd b)) m m2 -> Permutation m2 m' -> sorted_keys m' ->
    key_order (GMapS m) (GMapS m').
