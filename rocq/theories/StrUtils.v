(** string_utils.go and tools.go:isIpCIDR *)
From Coq Require Import List String Ascii Bool Arith ZArith.
From Verif Require Import Base GoStr GoFloat Types.
Import ListNotations.
Open Scope string_scope.

(** string_utils.go:11-43 RemoveDotQuotes.  [prev_dot]: chPrev == '.'; [rq], [rdq]: the two flags. *)
Fixpoint remove_dot_quotes_from (prev_dot rq rdq : bool) (s : string) : string :=
  match s with
  | EmptyString => ""
  | String ch s' =>
    if prev_dot && Ascii.eqb ch sq then remove_dot_quotes_from false true rdq s'
    else if prev_dot && Ascii.eqb ch dq then remove_dot_quotes_from false rq true s'
    else if rq && Ascii.eqb ch sq then remove_dot_quotes_from false false rdq s'
    else if rdq && Ascii.eqb ch dq then remove_dot_quotes_from false rq false s'
    else String ch (remove_dot_quotes_from (Ascii.eqb ch ".") rq rdq s')
  end.
Definition remove_dot_quotes (s : string) : string := remove_dot_quotes_from false false false s.

(** string_utils.go:58-63 and 94-99: the six escaping replacements, in order *)
Definition escape_pattern (s : string) : string :=
  let s := replace_all s "." "[.]" in
  let s := replace_all s "$" (String bslash "$") in
  let s := replace_all s "^" (String bslash "^") in
  let s := replace_all s "*" ".*" in
  let s := replace_all s "?" "." in
  replace_all s "/" (String bslash "/").

(** string_utils.go:56-69: the list items, separated by "|" *)
Fixpoint regex_items (l : list string) : string :=
  match l with
  | [] => ""
  | str :: l' =>
    let str := "^" ++ escape_pattern (trim_space str) ++ "$" in
    let str := match l' with [] => str | _ => str ++ "|" end in
    str ++ regex_items l'
  end.

(** string_utils.go:46-73 ConvertStringToRegex *)
Definition convert_string_to_regex (str_in method : string) : string :=
  if is_any method ["IN"; "NIN"; "WithWildcards"]
  then "(" ++ regex_items (split_char "," str_in) ++ ")"
  else "^" ++ str_in ++ "$".

(** string_utils.go:114-128 ConvertOperationStringToRegex *)
Definition convert_operation (str_in : string) : string :=
  if is_any str_in ["*"] then ".*"
  else if is_any str_in ["write"; "WRITE"] then "(^POST$|^PUT$|^DELETE$)"
  else if is_any str_in ["read"; "READ"]
  then "(^GET$|^HEAD$|^OPTIONS$|^TRACE$|^read$|^READ$)"
  else convert_string_to_regex str_in "WithWildcards".

(** string_utils.go:130-137 SliceHasPrefix *)
Definition slice_has_prefix (sl : list string) (v : string) : bool :=
  existsb (fun vv => has_prefix v vv) sl.

(** string_utils.go:143-144: unit suffixes with their factors, in the order tried *)
Definition units : list (string * f64) :=
  let p10 n := f64_of_Z (10 ^ n) in
  let p1024 n := f64_of_Z (1024 ^ n) in
  [ ("%", fdiv f_one (p10 2)%Z);
    ("e3", p10 3%Z); ("e6", p10 6%Z); ("e9", p10 9%Z); ("e12", p10 12%Z); ("e15", p10 15%Z); ("e18", p10 18%Z);
    ("Ki", p1024 1%Z); ("Mi", p1024 2%Z); ("Gi", p1024 3%Z); ("Ti", p1024 4%Z); ("Pi", p1024 5%Z); ("Ei", p1024 6%Z);
    ("K", p10 3%Z); ("M", p10 6%Z); ("G", p10 9%Z); ("T", p10 12%Z); ("P", p10 15%Z); ("E", p10 18%Z);
    ("m", fdiv f_one (p10 3)%Z) ].

Fixpoint with_units (us : list (string * f64)) (s : string) : string * f64 :=
  match us with
  | [] => (s, f_one)
  | (u, factor) :: us' =>
    if has_suffix s u && (count s u =? 1)%nat
    then (replace_all s u "", factor)
    else with_units us' s
  end.

(** string_utils.go:139-159 convertStringWithUnits *)
Definition convert_string_with_units (s : string) : string * f64 := with_units units s.

Definition first_char (s : string) : option ascii := String.get 0 s.
Definition last_char (s : string) : option ascii := String.get (String.length s - 1) s.
Definition starts_dq (s : string) : bool :=
  match first_char s with Some c => Ascii.eqb c dq | None => false end.
Definition ends_dq (s : string) : bool :=
  match last_char s with Some c => Ascii.eqb c dq | None => false end.
(** [s[1:len(s)-1]] for a string of length at least two *)
Definition strip_ends (s : string) : string := take (String.length s - 2) (drop 1 s).

(** string_utils.go:161-175 removeQuotesAndBrackets *)
Definition remove_quotes_and_brackets (v : string) : string :=
  let v := replace_all v "[[" "[" in
  let v := replace_all v "]]" "]" in
  let v := replace_all v (String "[" dqs) dqs in
  let v := replace_all v (String dq "]") dqs in
  let v := if String.eqb v "[]" then "" else v in
  if (2 <=? String.length v)%nat && (starts_dq v && ends_dq v) then strip_ends v else v.

(** string_utils.go:177-191 removeQuotesFromResult: None when the quotation marks are not aligned *)
Definition remove_quotes_from_result (s : string) : option string :=
  if (1 <? String.length s)%nat then
    if (starts_dq s && negb (ends_dq s)) || (ends_dq s && negb (starts_dq s)) then None
    else if ends_dq s && starts_dq s then Some (strip_ends s)
    else Some s
  else Some s.

(** *** net.IP (Go standard library, net/ip.go): To4, networkNumberAndMask, IPNet.Contains *)
Definition is_nil_ip (i : ip) : bool := match i with [] => true | _ => false end.

Definition to4 (i : ip) : ip :=
  if (List.length i =? 4)%nat then i
  else if (List.length i =? 16)%nat
       && forallb (Z.eqb 0) (firstn 10 i)
       && (nth 10 i 0 =? 255)%Z && (nth 11 i 0 =? 255)%Z
  then skipn 12 i
  else [].

Definition network_number_and_mask (n : ipnet) : ip * ip :=
  let i := to4 (n_ip n) in
  let i := if is_nil_ip i then n_ip n else i in
  let ok := (List.length i =? 4)%nat || (List.length i =? 16)%nat in
  if negb ok then ([], []) else
  let m := n_mask n in
  if (List.length m =? 4)%nat then
    if (List.length i =? 4)%nat then (i, m) else ([], [])
  else if (List.length m =? 16)%nat then
    if (List.length i =? 4)%nat then (i, skipn 12 m) else (i, m)
  else ([], []).

Fixpoint masked_equal (nn m i : ip) : bool :=
  match nn, i with
  | x :: nn', y :: i' =>
    let mk := hd 0%Z m in
    (Z.land x mk =? Z.land y mk)%Z && masked_equal nn' (tl m) i'
  | _, _ => true
  end.

Definition ip_contains (n : ipnet) (i : ip) : bool :=
  let (nn, m) := network_number_and_mask n in
  let x := to4 i in
  let i := if is_nil_ip x then i else x in
  if negb (List.length i =? List.length nn)%nat then false
  else masked_equal nn m i.

Section WithLib.
Variable L : Lib.

(** tools.go:103-121 isIpCIDR *)
Definition is_ip_cidr (s : string) : bool * bool * ip * ipnet :=
  match parse_cidr L s with
  | Some n => (false, true, [], n)
  | None => match parse_ip L s with
            | Some i => (true, false, i, mkIpnet [] [])
            | None => (false, false, [], mkIpnet [] [])
            end
  end.

(** string_utils.go:79-108: one list item *)
Definition expand_one (type_in str : string) : res (expanded L) :=
  let name := str in
  let subnet := String.eqb type_in "subnet" in
  let str := if subnet && String.eqb str "*" then "0.0.0.0/0" else str in
  let '(is_ip, is_cidr, i, cidr) :=
    if subnet then is_ip_cidr str else (false, false, [], mkIpnet [] []) in
  if subnet && negb is_ip && negb is_cidr then Err else
  let str := replace_all str " " "" in
  let str := "^" ++ escape_pattern str ++ "$" in
  match re_compile L str with
  | None => Err
  | Some re => Ok (mkExp name type_in (Some re) is_ip is_cidr cidr i)
  end.

(** string_utils.go:75-110 ConvertStringToExpandedSenderReceiver *)
Definition expand (str_in type_in : string) : res (list (expanded L)) :=
  rmapM (expand_one type_in) (split_char "," str_in).

End WithLib.
