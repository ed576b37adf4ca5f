(** Go's [strings] and [strconv] functions used by the engine, on ASCII strings. *)
From Coq Require Import List String Ascii Bool Arith ZArith Lia.
From Verif Require Import Base.
Import ListNotations.
Open Scope string_scope.

Definition chr (n : nat) : ascii := ascii_of_nat n.
(** the double-quote character, the single quote, backslash, and usual control characters *)
Definition dq : ascii := """".
Definition sq : ascii := "'".
Definition bslash : ascii := "\".
Definition nl : ascii := "010".
Definition dqs : string := String dq "".
Definition sqs : string := String sq "".
Definition bss : string := String bslash "".

(** strings.HasPrefix (Go standard library). *)
Definition has_prefix (s p : string) : bool := String.prefix p s.

Fixpoint drop (n : nat) (s : string) : string :=
  match n, s with
  | O, _ => s
  | S n', EmptyString => ""
  | S n', String _ s' => drop n' s'
  end.

Fixpoint take (n : nat) (s : string) : string :=
  match n, s with
  | O, _ => ""
  | S n', EmptyString => ""
  | S n', String c s' => String c (take n' s')
  end.

(** [s[i:j]]; [None] models the run-time panic of an out-of-range slice. *)
Definition slice (s : string) (i j : Z) : option string :=
  if ((0 <=? i)%Z && (i <=? j)%Z && (j <=? Z.of_nat (String.length s))%Z)%bool
  then Some (take (Z.to_nat (j - i)) (drop (Z.to_nat i) s))
  else None.

(** [s[i]]; [None] models the run-time panic. *)
Definition char_at (s : string) (i : Z) : option ascii :=
  if (i <? 0)%Z then None else String.get (Z.to_nat i) s.

(** strings.HasSuffix *)
Definition has_suffix (s suf : string) : bool :=
  (String.length suf <=? String.length s)%nat &&
  String.eqb (drop (String.length s - String.length suf) s) suf.

(** strings.Contains (non-empty needle) *)
Fixpoint contains (s sub : string) : bool :=
  String.prefix sub s ||
  match s with EmptyString => false | String _ s' => contains s' sub end.

(** strings.Index: position of the first occurrence or -1. *)
Fixpoint index_from (i : Z) (s sub : string) : Z :=
  if String.prefix sub s then i else
  match s with EmptyString => (-1)%Z | String _ s' => index_from (i + 1)%Z s' sub end.
Definition index (s sub : string) : Z := index_from 0 s sub.

(** strings.Replace(s, old, new, -1) for non-empty [old]: left to right,
    non-overlapping.  [skip] counts the remaining characters of the occurrence just
    replaced. *)
Fixpoint replace_all_from (old new : string) (skip : nat) (s : string) : string :=
  match s with
  | EmptyString => ""
  | String c s' =>
    match skip with
    | S k => replace_all_from old new k s'
    | O => if String.prefix old s
           then new ++ replace_all_from old new (String.length old - 1) s'
           else String c (replace_all_from old new 0 s')
    end
  end.
Definition replace_all (s old new : string) : string := replace_all_from old new 0 s.

(** strings.Replace(s, old, new, 1) for non-empty [old]. *)
Fixpoint replace_first (s old new : string) : string :=
  if String.prefix old s then new ++ drop (String.length old) s else
  match s with
  | EmptyString => ""
  | String c s' => String c (replace_first s' old new)
  end.

(** strings.Count for a non-empty [sub]. *)
Fixpoint count_from (sub : string) (skip : nat) (s : string) : nat :=
  match s with
  | EmptyString => 0
  | String c s' =>
    match skip with
    | S k => count_from sub k s'
    | O => if String.prefix sub s
           then S (count_from sub (String.length sub - 1) s')
           else count_from sub 0 s'
    end
  end.
Definition count (s sub : string) : nat := count_from sub 0 s.

(** strings.Split(s, sep) for a one-character separator. *)
Fixpoint split_char (sep : ascii) (s : string) : list string :=
  match s with
  | EmptyString => [""]
  | String c s' =>
    if Ascii.eqb c sep then "" :: split_char sep s'
    else match split_char sep s' with
         | [] => [String c ""]
         | x :: xs => String c x :: xs
         end
  end.

(** strings.Join *)
Fixpoint join (sep : string) (l : list string) : string :=
  match l with
  | [] => ""
  | [x] => x
  | x :: l' => x ++ sep ++ join sep l'
  end.

(** unicode.IsSpace.  ASCII: \t \n \v \f \r and space *)
Definition is_space (c : ascii) : bool :=
  let n := nat_of_ascii c in
  ((9 <=? n)%nat && (n <=? 13)%nat) || (n =? 32)%nat.
(** U+0085 and U+00A0, as their two bytes *)
Definition is_space2 (c d : ascii) : bool := Ascii.eqb c "194" && (Ascii.eqb d "133" || Ascii.eqb d "160").
(** U+1680, U+2000 to U+200A, U+2028, U+2029, U+202F, U+205F and U+3000, as their three bytes *)
Definition is_space3 (c d e : ascii) : bool :=
  if Ascii.eqb c "225" then Ascii.eqb d "154" && Ascii.eqb e "128"
  else if Ascii.eqb c "226" then
    if Ascii.eqb d "128" then existsb (Ascii.eqb e) ["128"; "129"; "130"; "131"; "132"; "133"; "134"; "135"; "136"; "137"; "138"; "168"; "169"; "175"]%char
    else Ascii.eqb d "129" && Ascii.eqb e "159"
  else Ascii.eqb c "227" && Ascii.eqb d "128" && Ascii.eqb e "128".

Fixpoint trim_left (s : string) : string :=
  match s with
  | EmptyString => ""
  | String c s1 =>
    if is_space c then trim_left s1
    else
      match s1 with
      | EmptyString => s
      | String d s2 =>
        if is_space2 c d then trim_left s2
        else
          match s2 with
          | EmptyString => s
          | String e s3 => if is_space3 c d e then trim_left s3 else s
          end
      end
  end.

(** a text ends where only white space follows *)
Fixpoint trim_right (s : string) : string :=
  match s with
  | EmptyString => ""
  | String c s' => match trim_left s with EmptyString => "" | _ => String c (trim_right s') end
  end.

(** strings.TrimSpace *)
Definition trim_space (s : string) : string := trim_right (trim_left s).

Definition upper_char (c : ascii) : ascii :=
  let n := nat_of_ascii c in
  if (97 <=? n)%nat && (n <=? 122)%nat then ascii_of_nat (n - 32) else c.
Definition lower_char (c : ascii) : ascii :=
  let n := nat_of_ascii c in
  if (65 <=? n)%nat && (n <=? 90)%nat then ascii_of_nat (n + 32) else c.

Fixpoint smap (f : ascii -> ascii) (s : string) : string :=
  match s with EmptyString => "" | String c s' => String (f c) (smap f s') end.

(** strings.ToUpper / strings.ToLower (ASCII) *)
Definition to_upper : string -> string := smap upper_char.
Definition to_lower : string -> string := smap lower_char.

(** unicode.SimpleFold, as far as it concerns ASCII letters: the lower case, and k and s for the Kelvin sign (U+212A)
    and the long s (U+017F); [c] comes before a text that is already folded *)
Definition fold_join (c : ascii) (s : string) : string :=
  match s with
  | String d s' =>
    if Ascii.eqb c "197" && Ascii.eqb d "191" then String "s" s'
    else
      match s' with
      | String e s'' => if Ascii.eqb c "226" && Ascii.eqb d "132" && Ascii.eqb e "170" then String "k" s'' else String (lower_char c) s
      | EmptyString => String (lower_char c) s
      end
  | EmptyString => String (lower_char c) s
  end.
Fixpoint fold_text (s : string) : string :=
  match s with EmptyString => "" | String c s' => fold_join c (fold_text s') end.
(** strings.EqualFold, and fold.go of encoding/json: exact if one of the texts is ASCII *)
Definition equal_fold (a b : string) : bool := String.eqb (fold_text a) (fold_text b).

(** strconv.ParseInt(s, 10, 64) / strconv.Atoi on a 64-bit platform *)
Definition digit_val (c : ascii) : option Z :=
  let n := nat_of_ascii c in
  if (48 <=? n)%nat && (n <=? 57)%nat then Some (Z.of_nat (n - 48)) else None.

Fixpoint parse_digits (acc : Z) (s : string) : option Z :=
  match s with
  | EmptyString => Some acc
  | String c s' =>
    match digit_val c with
    | Some d => parse_digits (acc * 10 + d)%Z s'
    | None => None
    end
  end.

Definition parse_uint (s : string) : option Z :=
  match s with EmptyString => None | _ => parse_digits 0 s end.

Definition min_int64 : Z := (- 2 ^ 63)%Z.
Definition max_int64 : Z := (2 ^ 63 - 1)%Z.

Definition parse_int (s : string) : option Z :=
  let r := match s with
           | String "-" s' => option_map Z.opp (parse_uint s')
           | String "+" s' => parse_uint s'
           | _ => parse_uint s
           end in
  match r with
  | Some z => if ((min_int64 <=? z)%Z && (z <=? max_int64)%Z)%bool then Some z else None
  | None => None
  end.

(** fmt.Sprintf("%v", int) *)
Fixpoint digits_fuel (fuel : nat) (z : Z) (acc : string) : string :=
  match fuel with
  | O => acc
  | S f =>
    let d := ascii_of_nat (48 + Z.to_nat (z mod 10)) in
    let acc' := String d acc in
    if (z / 10 =? 0)%Z then acc' else digits_fuel f (z / 10) acc'
  end.
Definition fmt_nat (z : Z) : string := digits_fuel (S (Z.to_nat (Z.log2 z))) z "".
Definition fmt_int (z : Z) : string :=
  if (z <? 0)%Z then String "-" (fmt_nat (- z)) else fmt_nat z.

(** byte-wise lexicographic order on strings (Go's [<] on strings) *)
Fixpoint str_leb (a b : string) : bool :=
  match a, b with
  | EmptyString, _ => true
  | String _ _, EmptyString => false
  | String x a', String y b' =>
    let nx := nat_of_ascii x in let ny := nat_of_ascii y in
    if (nx <? ny)%nat then true
    else if (ny <? nx)%nat then false else str_leb a' b'
  end.

(** sort.Strings: the sorted list is unique, so any sorting algorithm models it *)
Fixpoint insert_str (x : string) (l : list string) : list string :=
  match l with
  | [] => [x]
  | y :: l' => if str_leb x y then x :: l else y :: insert_str x l'
  end.
Fixpoint sort_strings (l : list string) : list string :=
  match l with [] => [] | x :: l' => insert_str x (sort_strings l') end.

Fixpoint insert_key {A} (x : string * A) (l : list (string * A)) : list (string * A) :=
  match l with
  | [] => [x]
  | y :: l' => if str_leb (fst x) (fst y) then x :: l else y :: insert_key x l'
  end.
(** entries of a map in the order of its sorted keys (encoding/json and fmt print maps so) *)
Fixpoint sort_keys {A} (l : list (string * A)) : list (string * A) :=
  match l with [] => [] | x :: l' => insert_key x (sort_keys l') end.
