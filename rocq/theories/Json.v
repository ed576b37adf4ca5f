(** encoding/json and fmt "%v" on interface{} values. *)
From Coq Require Import List String Ascii Bool Arith ZArith.
From Verif Require Import Base GoStr GoFloat Types.
Import ListNotations.
Open Scope string_scope.

(** *** Printing *)

Definition hex_digit (n : nat) : ascii :=
  if (n <? 10)%nat then ascii_of_nat (48 + n) else ascii_of_nat (87 + n).

(** encoding/json encodeState.string with escapeHTML = true (ASCII part).
    Simplification: \b and \f are printed as \u0008 and \u000c (as in older Go versions). *)
Definition json_escape_char (c : ascii) : string :=
  let n := nat_of_ascii c in
  if Ascii.eqb c dq then String bslash (String dq "")
  else if Ascii.eqb c bslash then String bslash (String bslash "")
  else if (n =? 10)%nat then String bslash "n"
  else if (n =? 13)%nat then String bslash "r"
  else if (n =? 9)%nat then String bslash "t"
  else if (n <? 32)%nat || Ascii.eqb c "<" || Ascii.eqb c ">" || Ascii.eqb c "&"
  then String bslash (String "u" (String "0" (String "0"
         (String (hex_digit (n / 16)) (String (hex_digit (n mod 16)) "")))))
  else String c "".

Fixpoint json_escape (s : string) : string :=
  match s with
  | EmptyString => ""
  | String c s' => json_escape_char c ++ json_escape s'
  end.

Definition json_string (s : string) : string := dqs ++ json_escape s ++ dqs.

Section WithLib.
Variable L : Lib.

(** all of a list of options, or None *)
Fixpoint all_some {A} (l : list (option A)) : option (list A) :=
  match l with
  | [] => Some []
  | Some a :: l' => option_map (cons a) (all_some l')
  | None :: _ => None
  end.

(** json.Marshal on an interface{}: None when it returns an error (map[interface{}]interface{},
    NaN, infinities).  Objects are printed in the order of their sorted keys. *)
Fixpoint json_marshal (v : iface) : option string :=
  match v with
  | GNil => Some "null"
  | GBool b => Some (if b then "true" else "false")
  | GInt z => Some (fmt_int z)
  | GFloat f => json_float L f
  | GStr s => Some (json_string s)
  | GArr l => option_map (fun xs => "[" ++ join "," xs ++ "]") (all_some (map json_marshal l))
  | GMapS m =>
    option_map (fun xs => "{" ++ join "," (map (fun kv => json_string (fst kv) ++ ":" ++ snd kv) (sort_keys xs)) ++ "}")
      (all_some (map (fun kv => option_map (pair (fst kv)) (json_marshal (snd kv))) m))
  | GMapI _ => None
  end.

(** fmt.Sprintf("%v", v) *)
Fixpoint go_fmt (v : iface) : string :=
  match v with
  | GNil => "<nil>"
  | GBool b => if b then "true" else "false"
  | GInt z => fmt_int z
  | GFloat f => fmt_float L f
  | GStr s => s
  | GArr l => "[" ++ join " " (map go_fmt l) ++ "]"
  | GMapS m => "map[" ++ join " " (map (fun kv => fst kv ++ ":" ++ snd kv)
                              (sort_keys (map (fun kv => (fst kv, go_fmt (snd kv))) m))) ++ "]"
  | GMapI m => fmt_mapI L m
  end.

(** *** Parsing: json.Unmarshal into interface{}.
    Simplifications: no nesting limit; bytes that are not UTF-8 are kept (Go replaces them by U+FFFD). *)

Definition is_json_ws (c : ascii) : bool :=
  let n := nat_of_ascii c in
  (n =? 32)%nat || (n =? 9)%nat || (n =? 10)%nat || (n =? 13)%nat.

Fixpoint skip_ws (s : string) : string :=
  match s with
  | String c s' => if is_json_ws c then skip_ws s' else s
  | EmptyString => ""
  end.

Definition hex_val (c : ascii) : option nat :=
  let n := nat_of_ascii c in
  if (48 <=? n)%nat && (n <=? 57)%nat then Some (n - 48)%nat
  else if (97 <=? n)%nat && (n <=? 102)%nat then Some (n - 87)%nat
  else if (65 <=? n)%nat && (n <=? 70)%nat then Some (n - 55)%nat
  else None.

(** utf8.EncodeRune: the bytes of a code point below 2^16 given as its four hexadecimal digits *)
Definition utf8 (a b c d : nat) : string :=
  let low := (c * 16 + d)%nat in
  if (a =? 0)%nat && (b =? 0)%nat && (low <? 128)%nat then String (ascii_of_nat low) ""
  else if (a =? 0)%nat && (b <? 8)%nat
  then String (ascii_of_nat (192 + b * 4 + low / 64)) (String (ascii_of_nat (128 + low mod 64)) "")
  else String (ascii_of_nat (224 + a))
        (String (ascii_of_nat (128 + b * 4 + low / 64)) (String (ascii_of_nat (128 + low mod 64)) "")).

(** unicode/utf16 (surr1, surr2, surr3): the code units D800-DFFF, of which the first half may open a pair *)
Definition surrogate (a b : nat) : bool := (a =? 13)%nat && (8 <=? b)%nat.
(** decode.go getu4 on what follows: an escape DC00-DFFF, its last three digits *)
Definition low_half (s : string) : option (nat * nat * nat) :=
  match s with
  | String x1 (String x2 (String g1 (String g2 (String g3 (String g4 _))))) =>
    if Ascii.eqb x1 bslash && Ascii.eqb x2 "u" then
      match hex_val g1, hex_val g2, hex_val g3, hex_val g4 with
      | Some a, Some b, Some c, Some d => if (a =? 13)%nat && (12 <=? b)%nat then Some (b, c, d) else None
      | _, _, _, _ => None
      end
    else None
  | _ => None
  end.
(** utf16.DecodeRune and utf8.EncodeRune: the four bytes of the code point of a pair D(b)(c)(d) D(b')(c')(d') *)
Definition utf8_pair (b c d b' c' d' : nat) : string :=
  let high := (256 * (N.of_nat b - 8) + 16 * N.of_nat c + N.of_nat d)%N in
  let low := (256 * (N.of_nat b' - 12) + 16 * N.of_nat c' + N.of_nat d')%N in
  let n := (65536 + 1024 * high + low)%N in
  String (ascii_of_N (240 + n / 262144)) (String (ascii_of_N (128 + (n / 4096) mod 64))
    (String (ascii_of_N (128 + (n / 64) mod 64)) (String (ascii_of_N (128 + n mod 64)) ""))).
(** unicode.ReplacementChar *)
Definition replacement : string := String "239" (String "191" (String "189" "")).
Definition read_before (u : string) (o : option (string * string)) : option (string * string) :=
  match o with Some (x, rest) => Some (u ++ x, rest) | None => None end.

(** the rest of a string literal after its opening quote; decode.go unquoteBytes: a \\u escape of a surrogate counts
    with the escape that follows if they are a pair, and as U+FFFD otherwise *)
Fixpoint parse_str (s : string) : option (string * string) :=
  match s with
  | EmptyString => None
  | String c s1 =>
    if Ascii.eqb c dq then Some ("", s1)
    else if Ascii.eqb c bslash then
      match s1 with
      | EmptyString => None
      | String e s2 =>
        let k (r : ascii) := match parse_str s2 with
                             | Some (x, rest) => Some (String r x, rest)
                             | None => None
                             end in
        if Ascii.eqb e dq then k dq
        else if Ascii.eqb e bslash then k bslash
        else if Ascii.eqb e "/" then k "/"%char
        else if Ascii.eqb e "b" then k "008"%char
        else if Ascii.eqb e "f" then k "012"%char
        else if Ascii.eqb e "n" then k "010"%char
        else if Ascii.eqb e "r" then k "013"%char
        else if Ascii.eqb e "t" then k "009"%char
        else if Ascii.eqb e "u" then
          match s2 with
          | String h1 (String h2 (String h3 (String h4 s3))) =>
            match hex_val h1, hex_val h2, hex_val h3, hex_val h4 with
            | Some a, Some b, Some c', Some d =>
              if surrogate a b then
                match (if (b <? 12)%nat then low_half s3 else None) with
                | Some (b2, c2, d2) =>
                  match s3 with
                  | String _ (String _ (String _ (String _ (String _ (String _ s4))))) => read_before (utf8_pair b c' d b2 c2 d2) (parse_str s4)
                  | _ => None
                  end
                | None => read_before replacement (parse_str s3)
                end
              else read_before (utf8 a b c' d) (parse_str s3)
            | _, _, _, _ => None
            end
          | _ => None
          end
        else None
      end
    else if (nat_of_ascii c <? 32)%nat then None
    else match parse_str s1 with
         | Some (x, rest) => Some (String c x, rest)
         | None => None
         end
  end.

Definition is_digit (c : ascii) : bool :=
  let n := nat_of_ascii c in (48 <=? n)%nat && (n <=? 57)%nat.

Fixpoint span_digits (s : string) : string * string :=
  match s with
  | String c s' => if is_digit c then let (a, b) := span_digits s' in (String c a, b) else ("", s)
  | EmptyString => ("", "")
  end.

Definition nonempty (s : string) : bool := match s with EmptyString => false | _ => true end.

(** JSON number literal: text and rest *)
Definition lex_number (s : string) : option (string * string) :=
  let (sign, s1) := match s with String "-" r => ("-", r) | _ => ("", s) end in
  let (i, s2) := span_digits s1 in
  let int_ok := match i with
                | EmptyString => false
                | String "0" (String _ _) => false
                | _ => true
                end in
  if negb int_ok then None else
  let frac := match s2 with
              | String "." r => let (f, r') := span_digits r in
                                if nonempty f then Some ("." ++ f, r') else None
              | _ => Some ("", s2)
              end in
  match frac with
  | None => None
  | Some (f, s3) =>
    let ex := match s3 with
              | String e r =>
                if Ascii.eqb e "e" || Ascii.eqb e "E" then
                  let (sg, r1) := match r with
                                  | String g r' => if Ascii.eqb g "+" || Ascii.eqb g "-"
                                                   then (String g "", r') else ("", r)
                                  | EmptyString => ("", r)
                                  end in
                  let (d, r2) := span_digits r1 in
                  if nonempty d then Some (String e (sg ++ d), r2) else None
                else Some ("", s3)
              | EmptyString => Some ("", s3)
              end in
    match ex with
    | None => None
    | Some (e, s4) => Some (sign ++ i ++ f ++ e, s4)
    end
  end.

Definition starts_with (c : ascii) (s : string) : option string :=
  match s with
  | String c' s' => if Ascii.eqb c c' then Some s' else None
  | EmptyString => None
  end.

(** [fuel] bounds the recursion; [json_parse] provides more than any text needs. *)
Fixpoint parse_value (fuel : nat) (s : string) : option (iface * string) :=
  match fuel with
  | O => None
  | S f =>
    match skip_ws s with
    | EmptyString => None
    | String c s' =>
      if Ascii.eqb c "{" then
        match starts_with "}" (skip_ws s') with
        | Some r => Some (GMapS [], r)
        | None => parse_members f [] s'
        end
      else if Ascii.eqb c "[" then
        match starts_with "]" (skip_ws s') with
        | Some r => Some (GArr [], r)
        | None => parse_elems f s'
        end
      else if Ascii.eqb c dq then
        match parse_str s' with
        | Some (x, r) => Some (GStr x, r)
        | None => None
        end
      else if has_prefix (String c s') "true" then Some (GBool true, drop 4 (String c s'))
      else if has_prefix (String c s') "false" then Some (GBool false, drop 5 (String c s'))
      else if has_prefix (String c s') "null" then Some (GNil, drop 4 (String c s'))
      else match lex_number (String c s') with
           | Some (t, r) => match parse_float L t with
                            | Some x => Some (GFloat x, r)
                            | None => None
                            end
           | None => None
           end
    end
  end
with parse_elems (fuel : nat) (s : string) : option (iface * string) :=
  match fuel with
  | O => None
  | S f =>
    match parse_value f s with
    | None => None
    | Some (v, r) =>
      match skip_ws r with
      | String c r' =>
        if Ascii.eqb c "]" then Some (GArr [v], r')
        else if Ascii.eqb c "," then
          match parse_elems f r' with
          | Some (GArr vs, r'') => Some (GArr (v :: vs), r'')
          | _ => None
          end
        else None
      | EmptyString => None
      end
    end
  end
with parse_members (fuel : nat) (acc : list (string * iface)) (s : string) : option (iface * string) :=
  match fuel with
  | O => None
  | S f =>
    match starts_with dq (skip_ws s) with
    | None => None
    | Some s1 =>
      match parse_str s1 with
      | None => None
      | Some (k, s2) =>
        match starts_with ":" (skip_ws s2) with
        | None => None
        | Some s3 =>
          match parse_value f s3 with
          | None => None
          | Some (v, r) =>
            let acc' := upsert k v acc in
            match skip_ws r with
            | String c r' =>
              if Ascii.eqb c "}" then Some (GMapS acc', r')
              else if Ascii.eqb c "," then parse_members f acc' r'
              else None
            | EmptyString => None
            end
          end
        end
      end
    end
  end.

(** json.Unmarshal(data, &x) with x of type interface{}; None on error *)
Definition json_parse (s : string) : option iface :=
  match parse_value (2 * String.length s + 2) s with
  | Some (v, r) => match skip_ws r with EmptyString => Some v | _ => None end
  | None => None
  end.

(** json.Unmarshal into map[string]interface{}: an object, or null which leaves the nil map *)
Definition json_parse_map (s : string) : option (list (string * iface)) :=
  match json_parse s with
  | Some (GMapS m) => Some m
  | Some GNil => Some []
  | _ => None
  end.

End WithLib.
