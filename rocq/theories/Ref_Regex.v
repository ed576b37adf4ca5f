(** A reference implementation of regular expressions (a subset of Go's syntax), used to build the
    concrete library [RefLib]. It is not part of the model of the engine. *)
From Coq Require Import List String Ascii Bool Arith.
From Verif Require Import Base GoStr Spec_Regex.
Import ListNotations.
Open Scope string_scope.

(** ** Matching by sets of states: at the beginning?, remaining text *)
Definition state := (bool * string)%type.
Definition state_eq_dec (x y : state) : {x = y} + {x <> y}.
Proof. decide equality; [apply string_dec|apply bool_dec]. Defined.

Fixpoint closure (n : nat) (f : state -> list state) (st : state) : list state :=
  st :: match n with
        | O => []
        | S n' => nodup state_eq_dec (flat_map (closure n' f)
                    (filter (fun x => (String.length (snd x) <? String.length (snd st))%nat) (f st)))
        end.

Fixpoint run (r : rx) (st : state) : list state :=
  match r with
  | REps => [st]
  | RChr f => match snd st with
              | String c s => if f c then [(false, s)] else []
              | EmptyString => []
              end
  | RSeq a b => nodup state_eq_dec (flat_map (run b) (run a st))
  | RAlt a b => (run a st ++ run b st)%list
  | RStar a => closure (String.length (snd st)) (run a) st
  | RBegin => if fst st then [st] else []
  | REnd => match snd st with EmptyString => [st] | _ => [] end
  end.

Definition non_empty {A} (l : list A) : bool := match l with [] => false | _ => true end.

Fixpoint search (r : rx) (b : bool) (s : string) : bool :=
  non_empty (run r (b, s)) ||
  match s with EmptyString => false | String _ s' => search r false s' end.
Definition rx_match (r : rx) (s : string) : bool := search r true s.

(** ** Parsing *)
Definition in_range (lo hi : nat) (c : ascii) : bool :=
  let n := nat_of_ascii c in (lo <=? n)%nat && (n <=? hi)%nat.
Definition digit_c (c : ascii) : bool := in_range 48 57 c.
Definition word_c (c : ascii) : bool := digit_c c || in_range 65 90 c || in_range 97 122 c || Ascii.eqb c "_".
Definition space_c (c : ascii) : bool := existsb (Ascii.eqb c) [" "; "009"; "010"; "012"; "013"]%char.

(** the set denoted by an escape *)
Definition escape_set (c : ascii) : option (ascii -> bool) :=
  if Ascii.eqb c "d" then Some digit_c
  else if Ascii.eqb c "D" then Some (fun x => negb (digit_c x))
  else if Ascii.eqb c "w" then Some word_c
  else if Ascii.eqb c "W" then Some (fun x => negb (word_c x))
  else if Ascii.eqb c "s" then Some space_c
  else if Ascii.eqb c "S" then Some (fun x => negb (space_c x))
  else if Ascii.eqb c "n" then Some (Ascii.eqb "010")
  else if Ascii.eqb c "t" then Some (Ascii.eqb "009")
  else if Ascii.eqb c "r" then Some (Ascii.eqb "013")
  else if Ascii.eqb c "f" then Some (Ascii.eqb "012")
  else if Ascii.eqb c "v" then Some (Ascii.eqb "011")
  else if in_range 33 47 c || in_range 58 64 c || in_range 91 96 c || in_range 123 126 c then Some (Ascii.eqb c)
  else None.

(** items of a bracket expression up to the closing bracket *)
Fixpoint parse_class (first : bool) (set : ascii -> bool) (s : string) : option ((ascii -> bool) * string) :=
  match s with
  | EmptyString => None
  | String "]" s' => if first then parse_class false (fun x => set x || Ascii.eqb "]" x) s' else Some (set, s')
  | String "\" (String c s') =>
    match escape_set c with
    | Some f => parse_class false (fun x => set x || f x) s'
    | None => None
    end
  | String "[" (String ":" _) => None
  | String a (String "-" (String b s' as s2)) =>
    if Ascii.eqb b "]" then parse_class false (fun x => set x || Ascii.eqb a x || Ascii.eqb "-" x) s2
    else if Ascii.eqb b "\" then None
    else if (nat_of_ascii a <=? nat_of_ascii b)%nat
    then parse_class false (fun x => set x || in_range (nat_of_ascii a) (nat_of_ascii b) x) s'
    else None
  | String a s' => parse_class false (fun x => set x || Ascii.eqb a x) s'
  end.

Fixpoint rep_exact (n : nat) (r : rx) : rx :=
  match n with O => REps | S n' => RSeq r (rep_exact n' r) end.
Fixpoint rep_upto (n : nat) (r : rx) : rx :=
  match n with O => REps | S n' => RAlt (RSeq r (rep_upto n' r)) REps end.

Fixpoint read_nat (acc : option nat) (s : string) : option nat * string :=
  match s with
  | String c s' => if digit_c c
                   then read_nat (Some ((match acc with Some n => n | None => 0 end) * 10 + (nat_of_ascii c - 48))%nat) s'
                   else (acc, s)
  | EmptyString => (acc, s)
  end.

(** {n}, {n,}, {n,m} after an atom; [None] when it is not a repetition (then the brace is literal) *)
Definition parse_braces (r : rx) (s : string) : option (option rx * string) :=
  let (n, s1) := read_nat None s in
  match n, s1 with
  | Some n, String "}" s2 => Some (if (n <=? 1000)%nat then Some (rep_exact n r) else None, s2)
  | Some n, String "," s2 =>
    let (m, s3) := read_nat None s2 in
    match m, s3 with
    | None, String "}" s4 => Some (if (n <=? 1000)%nat then Some (RSeq (rep_exact n r) (RStar r)) else None, s4)
    | Some m, String "}" s4 =>
      Some (if (n <=? m)%nat && (m <=? 1000)%nat then Some (RSeq (rep_exact n r) (rep_upto (m - n) r)) else None, s4)
    | _, _ => None
    end
  | _, _ => None
  end.

Definition skip_lazy (s : string) : string := match s with String "?" s' => s' | _ => s end.
Definition is_rep (s : string) : bool :=
  match s with String c _ => existsb (Ascii.eqb c) ["*"; "+"; "?"]%char | _ => false end.

(** repetition operators after an atom *)
Definition parse_rep (r : rx) (s : string) : option (rx * string) :=
  let fin (r : rx) (s : string) := let s := skip_lazy s in if is_rep s then None else Some (r, s) in
  match s with
  | String "*" s' => fin (RStar r) s'
  | String "+" s' => fin (RSeq r (RStar r)) s'
  | String "?" s' => fin (RAlt r REps) s'
  | String "{" s' => match parse_braces r s' with
                     | Some (Some r', s2) => fin r' s2
                     | Some (None, _) => None
                     | None => Some (r, s)
                     end
  | _ => Some (r, s)
  end.

Definition stops (s : string) : bool :=
  match s with EmptyString => true | String c _ => Ascii.eqb c "|" || Ascii.eqb c ")" end.

Fixpoint parse_alt (fuel : nat) (s : string) : option (rx * string) :=
  match fuel with
  | O => None
  | S f =>
    match parse_seq f s with
    | None => None
    | Some (r, String "|" s') =>
      match parse_alt f s' with
      | Some (r', s2) => Some (RAlt r r', s2)
      | None => None
      end
    | Some (r, s') => Some (r, s')
    end
  end
with parse_seq (fuel : nat) (s : string) : option (rx * string) :=
  match fuel with
  | O => None
  | S f =>
    if stops s then Some (REps, s) else
    match parse_atom f s with
    | None => None
    | Some (a, s1) =>
      match parse_rep a s1 with
      | None => None
      | Some (a', s2) =>
        match parse_seq f s2 with
        | Some (r, s3) => Some (RSeq a' r, s3)
        | None => None
        end
      end
    end
  end
with parse_atom (fuel : nat) (s : string) : option (rx * string) :=
  match fuel with
  | O => None
  | S f =>
    match s with
    | EmptyString => None
    | String "(" s' =>
      let inner := match s' with
                   | String "?" (String ":" s2) => Some s2
                   | String "?" _ => None
                   | _ => Some s'
                   end in
      match inner with
      | None => None
      | Some s2 =>
        match parse_alt f s2 with
        | Some (r, String ")" s3) => Some (r, s3)
        | _ => None
        end
      end
    | String "[" (String "^" s') =>
      match parse_class true (fun _ => false) s' with
      | Some (g, s2) => Some (RChr (fun c => negb (g c)), s2)
      | None => None
      end
    | String "[" s' =>
      match parse_class true (fun _ => false) s' with
      | Some (g, s2) => Some (RChr g, s2)
      | None => None
      end
    | String "\" (String c s') =>
      match escape_set c with
      | Some g => Some (RChr g, s')
      | None => None
      end
    | String "\" EmptyString => None
    | String "." s' => Some (any_char, s')
    | String "^" s' => Some (RBegin, s')
    | String "$" s' => Some (REnd, s')
    | String c s' => if is_rep s then None else Some (lit c, s')
    end
  end.

Definition rx_compile (s : string) : option rx :=
  match parse_alt (3 * String.length s + 3) s with
  | Some (r, EmptyString) => Some r
  | _ => None
  end.
