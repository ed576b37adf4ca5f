(** Specification of when a rule's sender, receiver, operation and resource match a message. *)
From Coq Require Import List String Ascii Bool Arith ZArith.
From Verif Require Import Base GoFloat Types.
Import ListNotations.
Open Scope string_scope.

(** ** Networks: [addr] belongs to the network when it has the same length (family) and agrees with
    the network number on every bit set in the mask.  An IPv4-mapped IPv6 address counts as IPv4. *)
Definition v4_mapped (i : ip) (v4 : ip) : Prop := i = (repeat 0%Z 10 ++ [255; 255]%Z ++ v4)%list /\ List.length v4 = 4%nat.
Definition canonical_ip (i c : ip) : Prop :=
  v4_mapped i c \/ ((~ exists v4, v4_mapped i v4) /\ c = i).
Definition agrees (mask x y : Z) : Prop :=
  forall k, (0 <= k)%Z -> Z.testbit mask k = true -> Z.testbit x k = Z.testbit y k.
Inductive same_network : ip -> ip -> ip -> Prop :=
| sn_nil : same_network [] [] []
| sn_cons m ms x xs y ys : agrees m x y -> same_network ms xs ys -> same_network (m :: ms) (x :: xs) (y :: ys).
(** [in_network net addr] for a network whose number and mask have the same length *)
Definition in_network (net : ipnet) (addr : ip) : Prop :=
  exists c, canonical_ip addr c /\ same_network (n_mask net) (n_ip net) c.
Definition proper_network (net : ipnet) : Prop :=
  List.length (n_mask net) = List.length (n_ip net) /\
  (List.length (n_ip net) = 4%nat \/ (List.length (n_ip net) = 16%nat /\ ~ exists v4, v4_mapped (n_ip net) v4)).

(** ** Equality of texts up to the case of (ASCII) letters *)
Definition case_pair (c d : ascii) : Prop :=
  (65 <= nat_of_ascii c <= 90)%nat /\ nat_of_ascii d = (nat_of_ascii c + 32)%nat.
Definition same_letter (c d : ascii) : Prop := c = d \/ case_pair c d \/ case_pair d c.
Inductive same_ignoring_case : string -> string -> Prop :=
| sic_nil : same_ignoring_case "" ""
| sic_cons c d s t : same_letter c d -> same_ignoring_case s t -> same_ignoring_case (String c s) (String d t).
(** The same for texts in UTF-8, of which one is ASCII: by the case folding of Unicode the Kelvin sign (U+212A) counts as
    the letter k and the long s (U+017F) as the letter s. *)
Definition spellings : list (list string) :=
  let signs (l : list nat) := string_of_list_ascii (map ascii_of_nat l) in
  [["k"; "K"; signs [226; 132; 170]]; ["s"; "S"; signs [197; 191]]].
Inductive same_folded : string -> string -> Prop :=
| sf_nil : same_folded "" ""
| sf_letter c d s t : same_letter c d -> same_folded s t -> same_folded (String c s) (String d t)
| sf_sign g x y s t : In g spellings -> In x g -> In y g -> same_folded s t -> same_folded (x ++ s) (y ++ t).

Section WithLib.
Variable L : Lib.

(** a compiled pattern accepts a text *)
Definition accepts (p : option (RE L)) (s : string) : Prop := exists r, p = Some r /\ re_match L r s = true.

(** one entry of the sender or receiver list *)
Definition subnet_entry (x : expanded L) (address : string) (addr : ip) : Prop :=
  (x_is_cidr x = true /\ in_network (x_cidr x) addr)
  \/ (x_is_cidr x = false /\ x_is_ip x = true /\ x_name x = address).
Definition sender_entry (x : expanded L) (m : message) : Prop :=
  (x_type x = "subnet" /\ subnet_entry x (m_source_ip m) (m_source_netip m))
  \/ ((x_type x = "*" \/ x_type x = "workload") /\ accepts (x_regexp x) (m_source_service m)).
Definition receiver_entry (x : expanded L) (m : message) : Prop :=
  (x_type x = "subnet" /\ subnet_entry x (m_dest_ip m) (m_dest_netip m))
  \/ (x_type x = "hostname" /\ accepts (x_regexp x) (m_host m))
  \/ ((x_type x = "*" \/ x_type x = "workload") /\ accepts (x_regexp x) (m_dest_service m)).
Definition sender_matches (r : rule L) (m : message) : Prop := Exists (fun x => sender_entry x m) (ru_sender_list r).
Definition receiver_matches (r : rule L) (m : message) : Prop := Exists (fun x => receiver_entry x m) (ru_receiver_list r).
Definition operation_matches (r : rule L) (m : message) : Prop := accepts (ru_operation_regex r) (m_method m).
Definition resource_matches (r : rule L) (m : message) : Prop :=
  (ru_protocol r = "tcp" /\ accepts (ru_resource_regex r) (m_dest_port m))
  \/ ru_protocol r = "*"
  \/ (ru_protocol r <> "tcp" /\ ru_protocol r <> "*" /\
      same_folded (m_protocol m) (ru_protocol r) /\
      (ru_resource_type r = "*" \/ m_context_type m = ru_resource_type r) /\
      accepts (ru_resource_regex r) (m_path m)).

(** one item of a subnet list: [*] stands for every IPv4 address *)
Definition subnet_text (item : string) : string := if String.eqb item "*" then "0.0.0.0/0" else item.
Definition subnet_item (item address : string) (addr : ip) : Prop :=
  (exists n, parse_cidr L (subnet_text item) = Some n /\ in_network n addr)
  \/ (parse_cidr L (subnet_text item) = None /\ parse_ip L (subnet_text item) <> None /\ item = address).
(** what an item of a subnet list must be *)
Definition address_or_network (item : string) : Prop :=
  parse_cidr L (subnet_text item) <> None \/ parse_ip L (subnet_text item) <> None.

(** The shape of a rule after preparation: every entry of a side has the type of that side and a
    compiled pattern, its networks are proper, and both patterns of the rule are compiled. *)
Definition entry_ready (ty : string) (x : expanded L) : Prop :=
  x_type x = ty /\ x_regexp x <> None /\ (x_is_cidr x = true -> proper_network (x_cidr x)).
Definition ready (r : rule L) : Prop :=
  Forall (entry_ready (ru_sender_type r)) (ru_sender_list r) /\
  Forall (entry_ready (ru_receiver_type r)) (ru_receiver_list r) /\
  ru_operation_regex r <> None /\ ru_resource_regex r <> None.

(** What net.ParseCIDR guarantees about a network it returns. *)
Definition CidrSpec : Prop := forall s n, parse_cidr L s = Some n -> proper_network n.

End WithLib.
