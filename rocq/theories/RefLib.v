(** A concrete executable library, used for examples, refutations and to show that the hypotheses on
    libraries can be met.  It is not part of the model of the engine; each function covers
    the inputs used in the examples and rejects others. *)
From Coq Require Import List String Ascii Bool Arith ZArith Floats.SpecFloat.
From Verif Require Import Base GoStr GoFloat Types Json Spec_Regex Ref_Regex.
Import ListNotations.
Open Scope string_scope.

(** ** strconv.ParseFloat on decimal text (no hexadecimal, no underscores), correctly rounded *)

(** nearest float64 of [m * 10^e], m >= 0 *)
Definition decimal_to_float (neg : bool) (m e : Z) : f64 :=
  let sgn (x : f64) := if neg then fopp x else x in
  if (m =? 0)%Z then S754_zero neg
  else if (0 <=? e)%Z then
    if (400 <? e)%Z then S754_infinity neg
    else sgn (binary_normalize fprec femax (m * 10 ^ e) 0 false)
  else
    let k := (- e)%Z in
    let s := Z.max 0 (Z.log2 (10 ^ k) - Z.log2 m + 70)%Z in
    let num := (m * 2 ^ s)%Z in
    let q := (num / 10 ^ k)%Z in
    let sticky := if (num mod 10 ^ k =? 0)%Z then 0%Z else 1%Z in
    sgn (binary_normalize fprec femax (2 * q + sticky) (- s - 1) false).

Definition is_infinite (x : f64) : bool := match x with S754_infinity _ => true | _ => false end.

Fixpoint span_dec (acc : Z) (n : nat) (s : string) : Z * nat * string :=
  match s with
  | String c s' => match digit_val c with
                   | Some d => span_dec (acc * 10 + d)%Z (S n) s'
                   | None => (acc, n, s)
                   end
  | EmptyString => (acc, n, s)
  end.

Definition ref_parse_float (s : string) : option f64 :=
  let l := to_lower s in
  if is_any l ["inf"; "+inf"; "infinity"; "+infinity"] then Some (S754_infinity false)
  else if is_any l ["-inf"; "-infinity"] then Some (S754_infinity true)
  else if String.eqb l "nan" then Some S754_nan
  else
    let '(neg, s1) := match s with
                      | String "-" r => (true, r)
                      | String "+" r => (false, r)
                      | _ => (false, s)
                      end in
    let '(m, n, s2) := span_dec 0 0 s1 in
    let '(m, n2, s3) := match s2 with
                        | String "." r => span_dec m 0 r
                        | _ => (m, 0%nat, s2)
                        end in
    if ((n + n2) =? 0)%nat then None else
    let e := match s3 with
             | EmptyString => Some 0%Z
             | String x r =>
               if Ascii.eqb x "e" || Ascii.eqb x "E" then
                 let '(eneg, r1) := match r with
                                    | String "-" r' => (true, r')
                                    | String "+" r' => (false, r')
                                    | _ => (false, r)
                                    end in
                 let '(z, k, r2) := span_dec 0 0 r1 in
                 if (k =? 0)%nat || nonempty r2 then None
                 else Some (if eneg : bool then (- Z.min z 10000)%Z else Z.min z 10000)
               else None
             end in
    match e with
    | None => None
    | Some e =>
      let x := decimal_to_float neg m (e - Z.of_nat n2)%Z in
      (* numbers below 2^64 without an exponent are never out of range *)
      if is_infinite x && negb ((e =? 0)%Z && (m <? 2 ^ 64)%Z) then None else Some x
    end.

(** ** Shortest decimal text of a float64 *)

(** exact value as a fraction *)
Definition fraction (m : positive) (e : Z) : Z * Z :=
  if (0 <=? e)%Z then (Z.pos m * 2 ^ e, 1)%Z else (Z.pos m, 2 ^ (- e))%Z.

(** decimal exponent: 10^k <= num/den < 10^(k+1) *)
Definition pow10_le (num den k : Z) : bool :=
  if (0 <=? k)%Z then (10 ^ k * den <=? num)%Z else (den <=? num * 10 ^ (- k))%Z.
Definition dec_exp (num den : Z) : Z :=
  let k := ((Z.log2 num - Z.log2 den) * 30103 / 100000)%Z in
  if pow10_le num den (k + 1) then (k + 1)%Z else if pow10_le num den k then k else (k - 1)%Z.

(** nearest integer to num/den * 10^s *)
Definition scaled (num den s : Z) : Z :=
  let '(a, b) := if (0 <=? s)%Z then (num * 10 ^ s, den)%Z else (num, den * 10 ^ (- s))%Z in
  ((2 * a + b) / (2 * b))%Z.

Fixpoint shortest (fuel : nat) (n : Z) (x : f64) (num den k : Z) : Z * Z :=
  (* digits as an integer of n digits, and the exponent of the last digit *)
  let s := (n - 1 - k)%Z in
  let d := scaled num den s in
  match fuel with
  | O => (d, - s)%Z
  | S f => if feqb (decimal_to_float false d (- s)) x then (d, - s)%Z
           else shortest f (n + 1)%Z x num den k
  end.

Fixpoint strip_zeros (fuel : nat) (d e : Z) : Z * Z :=
  match fuel with
  | O => (d, e)
  | S f => if (d mod 10 =? 0)%Z then strip_zeros f (d / 10) (e + 1) else (d, e)
  end.

Fixpoint zeros (n : nat) : string := match n with O => "" | S n' => String "0" (zeros n') end.

(** positional notation of d * 10^e *)
Definition positional (d e : Z) : string :=
  let t := fmt_int d in
  let n := String.length t in
  if (0 <=? e)%Z then t ++ zeros (Z.to_nat e)
  else let p := Z.to_nat (- e) in
       if (p <? n)%nat then take (n - p) t ++ "." ++ drop (n - p) t
       else "0." ++ zeros (p - n) ++ t.

(** scientific notation; the exponent has at least [w] digits *)
Definition scientific (w : nat) (d e : Z) : string :=
  let t := fmt_int d in
  let n := String.length t in
  let ex := (e + Z.of_nat n - 1)%Z in
  let es := fmt_int (Z.abs ex) in
  let es := zeros (w - String.length es) ++ es in
  take 1 t ++ (if (1 <? n)%nat then "." ++ drop 1 t else "") ++ "e" ++ (if (ex <? 0)%Z then "-" else "+") ++ es.

Definition digits_of (m : positive) (e : Z) : Z * Z :=
  let '(num, den) := fraction m e in
  let '(d, e10) := shortest 16 1 (S754_finite false m e) num den (dec_exp num den) in
  strip_zeros 25 d e10.

(** fmt "%v": scientific when the exponent is below -4 or at least 6 (as %g with the shortest precision) *)
Definition ref_fmt_float (x : f64) : string :=
  match x with
  | S754_nan => "NaN"
  | S754_infinity s => if s then "-Inf" else "+Inf"
  | S754_zero s => if s then "-0" else "0"
  | S754_finite s m e =>
    let '(d, e10) := digits_of m e in
    let ex := (e10 + Z.of_nat (String.length (fmt_int d)) - 1)%Z in
    (if s then "-" else "") ++
    (if (ex <? -4)%Z || (6 <=? ex)%Z then scientific 2 d e10 else positional d e10)
  end.

(** encoding/json: scientific below 1e-6 and from 1e21 on *)
Definition ref_json_float (x : f64) : option string :=
  match x with
  | S754_nan | S754_infinity _ => None
  | S754_zero s => Some (if s then "-0" else "0")
  | S754_finite s m e =>
    let '(d, e10) := digits_of m e in
    let ex := (e10 + Z.of_nat (String.length (fmt_int d)) - 1)%Z in
    Some ((if s then "-" else "") ++
    (if (ex <? -6)%Z then scientific 1 d e10
     else if (21 <=? ex)%Z then scientific 2 d e10 else positional d e10))
  end.

(** ** JSON paths: $, .name, ['name'], [n], .*, [*], [:], ..name *)
Inductive step := SKey (k : string) | SIdx (n : nat) | SAll | SDeep (k : string).

Definition name_char (c : ascii) : bool :=
  negb (existsb (Ascii.eqb c) ["."; "["; "]"; "'"; dq; " "; "("; ")"; "$"; "*"; ","; "?"; "@"; ":"]%char).
Fixpoint span_name (s : string) : string * string :=
  match s with
  | String c s' => if name_char c then let (a, b) := span_name s' in (String c a, b) else ("", s)
  | EmptyString => ("", "")
  end.
Fixpoint span_until (q : ascii) (s : string) : option (string * string) :=
  match s with
  | EmptyString => None
  | String c s' => if Ascii.eqb c q then Some ("", s')
                   else match span_until q s' with Some (a, b) => Some (String c a, b) | None => None end
  end.

Fixpoint parse_steps (fuel : nat) (s : string) : option (list step) :=
  match fuel with
  | O => None
  | S f =>
    let more (x : step) (r : string) := option_map (cons x) (parse_steps f r) in
    match s with
    | EmptyString => Some []
    | String "." (String "*" r) => more SAll r
    | String "." (String "." r) =>
      let (k, r') := span_name r in
      if nonempty k then more (SDeep k) r' else None
    | String "." r =>
      let (k, r') := span_name r in
      if nonempty k then more (SKey k) r' else None
    | String "[" r =>
      if has_prefix r "*]" || has_prefix r ":]" then more SAll (drop 2 r) else
      match r with
      | String c r1 =>
        if Ascii.eqb c dq || Ascii.eqb c sq then
          match span_until c r1 with
          | Some (k, String "]" r2) => more (SKey k) r2
          | _ => None
          end
        else
          match span_dec 0 0 r with
          | (z, S _, String "]" r2) => more (SIdx (Z.to_nat z)) r2
          | _ => None
          end
      | EmptyString => None
      end
    | _ => None
    end
  end.

Definition ref_jp_prepare (s : string) : option (list step) :=
  match s with
  | String "$" r => parse_steps (String.length s) r
  | _ => None
  end.

(** result of a path: a value, or several values after a wildcard *)
Inductive found_value := One (v : iface) | Many (l : list iface) | Fail (e : string).

Definition items (v : iface) : option (list iface) :=
  match v with
  | GArr l => Some l
  | GMapS m => Some (map snd m)
  | _ => None
  end.

Fixpoint merge (l : list found_value) : list iface :=
  match l with
  | [] => []
  | One v :: l' => v :: merge l'
  | Many vs :: l' => (vs ++ merge l')%list
  | Fail _ :: l' => merge l'
  end.

(** the values of a key at any depth *)
Fixpoint deep (k : string) (v : iface) : list iface :=
  match v with
  | GMapS m => ((match assoc k m with Some x => [x] | None => [] end) ++ List.concat (map (fun e => deep k (snd e)) m))%list
  | GArr l => List.concat (map (deep k) l)
  | _ => []
  end.

Fixpoint walk (p : list step) (v : iface) : found_value :=
  match p with
  | [] => One v
  | SKey k :: p' =>
    match v with
    | GMapS m => match assoc k m with
                 | Some x => walk p' x
                 | None => Fail ("child '" ++ k ++ "' not found in JSON object at 0")
                 end
    | _ => Fail "expected JSON object"
    end
  | SIdx n :: p' =>
    match v with
    | GArr l => match nth_error l n with Some x => walk p' x | None => Fail "out of bounds array access" end
    | _ => Fail "expected array"
    end
  | SAll :: p' =>
    match items v with
    | Some l => Many (merge (map (walk p') l))
    | None => Fail "expected array or object"
    end
  | SDeep k :: p' => Many (merge (map (walk p') (deep k v)))
  end.

Definition ref_jp_query (p : list step) (v : iface) : iface * option string :=
  match walk p v with
  | One x => (x, None)
  | Many l => (GArr l, None)
  | Fail e => (GNil, Some e)
  end.

(** pretty.Ugly: removes white space outside strings *)
Fixpoint ref_ugly_from (in_string escaped : bool) (s : string) : string :=
  match s with
  | EmptyString => ""
  | String c s' =>
    if in_string then
      String c (ref_ugly_from (escaped || negb (Ascii.eqb c dq)) (negb escaped && Ascii.eqb c bslash) s')
    else if (nat_of_ascii c <=? 32)%nat then ref_ugly_from false false s'
    else String c (ref_ugly_from (Ascii.eqb c dq) false s')
  end.

(** ** Addresses: dotted IPv4 *)
Definition octet (s : string) : option Z :=
  match parse_uint s with
  | Some z => if (z <=? 255)%Z && (String.length s <=? 3)%nat then Some z else None
  | None => None
  end.
Definition ipv4 (s : string) : option ip :=
  match map octet (split_char "." s) with
  | [Some a; Some b; Some c; Some d] => Some [a; b; c; d]
  | _ => None
  end.
Definition ref_parse_ip (s : string) : option ip :=
  match ipv4 s with
  | Some i => Some (repeat 0%Z 10 ++ [255; 255]%Z ++ i)%list
  | None => None
  end.
(** the byte with the n highest bits set *)
Definition mask_byte (n : Z) : Z := (256 - 2 ^ (8 - Z.max 0 (Z.min 8 n)))%Z.
Definition cidr_mask (n : Z) : ip := [mask_byte n; mask_byte (n - 8); mask_byte (n - 16); mask_byte (n - 24)].
Fixpoint land_all (a b : ip) : ip :=
  match a, b with x :: a', y :: b' => Z.land x y :: land_all a' b' | _, _ => [] end.
Definition ref_parse_cidr (s : string) : option ipnet :=
  match split_char "/" s with
  | [a; b] => match ipv4 a, parse_uint b with
              | Some i, Some n => if (n <=? 32)%Z then Some (mkIpnet (land_all i (cidr_mask n)) (cidr_mask n)) else None
              | _, _ => None
              end
  | _ => None
  end.

(** ** RFC 3339 times: clock fields of YYYY-MM-DDThh:mm:ss[.fraction](Z|+hh:mm|-hh:mm); the date is not checked *)
Definition num_at (s : string) (i n : nat) : option Z := parse_uint (take n (drop i s)).
Definition ref_parse_time (s : string) : option (Z * Z * Z * Z) :=
  match num_at s 0 4, num_at s 5 2, num_at s 8 2, num_at s 11 2, num_at s 14 2, num_at s 17 2 with
  | Some _, Some _, Some _, Some h, Some mi, Some se =>
    let ok := String.eqb (take 1 (drop 4 s)) "-" && String.eqb (take 1 (drop 7 s)) "-"
              && String.eqb (take 1 (drop 10 s)) "T" && String.eqb (take 1 (drop 13 s)) ":"
              && String.eqb (take 1 (drop 16 s)) ":" && (h <=? 23)%Z && (mi <=? 59)%Z && (se <=? 59)%Z in
    let rest := drop 19 s in
    let '(ns, rest) := match rest with
                       | String "." r => let '(z, n, r') := span_dec 0 0 r in
                                         ((z * 10 ^ (9 - Z.of_nat n))%Z, r')
                       | _ => (0%Z, rest)
                       end in
    let zone := String.eqb rest "Z" ||
                ((String.length rest =? 6)%nat && (has_prefix rest "+" || has_prefix rest "-")) in
    if ok && zone then Some (h, mi, se, ns) else None
  | _, _, _, _, _, _ => None
  end.

(** ** The library *)
(** functions that do not need the rest *)
Definition BaseLib : Lib :=
  mkLib rx rx_compile rx_match (list step) ref_jp_prepare ref_jp_query
    (fun _ _ => ("", true)) (ref_ugly_from false false)
    ref_parse_float ref_fmt_float ref_json_float (fun _ => "map[]")
    ref_parse_ip ref_parse_cidr ref_parse_time (fun s => s) (@Some rx).

(** jsonslice.Get: text of the value at the path; nothing when it is absent; $* is the document itself *)
Definition ref_js_get (data path : string) : string * bool :=
  match ref_jp_prepare (if String.eqb path "$*" then "$" else path), json_parse BaseLib data with
  | Some p, Some v =>
    match walk p v with
    | One x => match json_marshal BaseLib x with Some s => (s, false) | None => ("", true) end
    | Many l => match json_marshal BaseLib (GArr l) with Some s => (s, false) | None => ("", true) end
    | Fail _ => ("", false)
    end
  | _, _ => ("", true)
  end.

Definition RefLib : Lib :=
  mkLib rx rx_compile rx_match (list step) ref_jp_prepare ref_jp_query
    ref_js_get (ref_ugly_from false false)
    ref_parse_float ref_fmt_float ref_json_float (fun _ => "map[]")
    ref_parse_ip ref_parse_cidr ref_parse_time (fun s => s) (@Some rx).

(** the order in which keys are listed *)
Definition in_order : order := fun _ ks => ks.
Definition reversed : order := fun _ ks => rev ks.
