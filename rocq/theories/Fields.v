(** Counting the fields of a message read from YAML: tools.go:12-101, messages_load.go:14-35, definitions_message.go:67-74. *)
From Coq Require Import List String Ascii Bool Arith ZArith.
From Verif Require Import Base GoStr GoFloat Types Json Messages.
Import ListNotations.
Open Scope string_scope.

Definition eol : string := String "010" "".

(** encoding/base64 StdEncoding: how encoding/json prints a []byte *)
Definition base64_char (n : nat) : ascii :=
  if (n <? 26)%nat then ascii_of_nat (65 + n) else if (n <? 52)%nat then ascii_of_nat (71 + n)
  else if (n <? 62)%nat then ascii_of_nat (n - 4) else if (n =? 62)%nat then "+"%char else "/"%char.
Fixpoint base64 (s : string) : string :=
  match s with
  | EmptyString => ""
  | String a EmptyString =>
    let x := nat_of_ascii a in String (base64_char (x / 4)) (String (base64_char (x mod 4 * 16)) "==")
  | String a (String b EmptyString) =>
    let x := nat_of_ascii a in let y := nat_of_ascii b in
    String (base64_char (x / 4)) (String (base64_char (x mod 4 * 16 + y / 16)) (String (base64_char (y mod 16 * 4)) "="))
  | String a (String b (String c r)) =>
    let x := nat_of_ascii a in let y := nat_of_ascii b in let z := nat_of_ascii c in
    String (base64_char (x / 4)) (String (base64_char (x mod 4 * 16 + y / 16))
      (String (base64_char (y mod 16 * 4 + z / 64)) (String (base64_char (z mod 64)) (base64 r))))
  end.

Section WithLib.
Variable L : Lib.

(** json.MarshalIndent(v, "", "  ") of a value that is [pad] deep *)
Definition block (pad left right : string) (items : list string) : string :=
  match items with
  | [] => left ++ right
  | _ => left ++ eol ++ join ("," ++ eol) (map (fun x => pad ++ "  " ++ x) items) ++ eol ++ pad ++ right
  end.
Fixpoint json_indent (pad : string) (v : iface) : option string :=
  match v with
  | GArr l => option_map (block pad "[" "]") (all_some (map (json_indent (pad ++ "  ")) l))
  | GMapS m =>
    option_map (fun xs => block pad "{" "}" (map (fun kv => json_string (fst kv) ++ ": " ++ snd kv) (sort_keys xs)))
      (all_some (map (fun kv => option_map (pair (fst kv)) (json_indent (pad ++ "  ") (snd kv))) m))
  | _ => json_marshal L v
  end.

Definition or_null {A} (f : A -> option string) (x : option A) : option string :=
  match x with Some a => f a | None => Some "null" end.

(** the fields of a MessageAttributes (definitions_message.go:11-62) as they are printed.
    Simplification: the message was just read from YAML, so that the fields tagged yaml:"-" (55-62) are zero. *)
Definition message_fields (m : message) : list (string * option string) :=
  [("SourceIp", Some (json_string (m_source_ip m)));
   ("SourceNamespace", Some (json_string (m_source_namespace m)));
   ("SourceCluster", Some (json_string (m_source_cluster m)));
   ("DestinationIp", Some (json_string (m_dest_ip m)));
   ("DestinationPort", Some (json_string (m_dest_port m)));
   ("DestinationNamespace", Some (json_string (m_dest_namespace m)));
   ("DestinationCluster", Some (json_string (m_dest_cluster m)));
   ("RequestPath", Some (json_string (m_path m)));
   ("RequestHost", Some (json_string (m_host m)));
   ("RequestMethod", Some (json_string (m_method m)));
   ("RequestSize", Some (fmt_int (m_size m)));
   ("RequestTime", Some (json_string (m_time m)));
   ("RequestUseragent", Some (json_string (m_useragent m)));
   ("ContextProtocol", Some (json_string (m_protocol m)));
   ("MessageID", Some (json_string (m_id m)));
   ("SourceService", Some (json_string (m_source_service m)));
   ("DestinationService", Some (json_string (m_dest_service m)));
   ("SourceLabelsJson", Some (json_string (m_source_labels_json m)));
   ("DestinationLabelsJson", Some (json_string (m_dest_labels_json m)));
   ("ContextType", Some (json_string (m_context_type m)));
   ("EncryptionType", Some (json_string (m_enc_type m)));
   ("EncryptionVersion", or_null (json_float L) (m_enc_version m));
   ("RequestJsonRaw", or_null (fun s => Some (dqs ++ base64 s ++ dqs)) (m_json m));
   ("RequestJsonRawRelative", or_null (fun s => Some (dqs ++ base64 s ++ dqs)) (m_json_rel m));
   ("RequestRawInterface", or_null (json_indent "  ") (m_raw m));
   ("RequestRawInterfaceRelative", or_null (json_indent "  ") (m_raw_rel m));
   ("Domain", Some (json_string (m_domain m)));
   ("RequestTimeSecondsFromMidnightUTC", Some "0");
   ("RequestTimeMinutesFromMidnightUTC", Some "0");
   ("RequestTimeHoursFromMidnightUTC", Some "0");
   ("SourceNetIp", Some (dqs ++ dqs));
   ("DestinationNetIp", Some (dqs ++ dqs));
   ("SourceLabels", Some "null");
   ("DestinationLabels", Some "null")].

(** definitions_message.go:67-74 (MessageAttributes).ToJson; None is an error of json.Marshal *)
Definition message_json (m : message) : option string :=
  option_map (fun xs => block "" "{" "}" (map (fun kv => dqs ++ fst kv ++ dqs ++ ": " ++ snd kv) xs))
    (all_some (map (fun kv => option_map (pair (fst kv)) (snd kv)) (message_fields m))).
End WithLib.

(** the replacements of tools.go:34-62, in that order *)
Definition cleaning : list (string * string) :=
  [(dqs, ""); ("null", ""); ("," ++ eol, eol); ("{}" ++ eol, eol); ("{" ++ eol, eol); ("[" ++ eol, eol); ("}" ++ eol, eol); ("]" ++ eol, eol);
   ("ValueInt:", "ValueInt-"); ("ValueFloat:", "ValueFloat-"); ("ValueRegex:", "ValueRegex-"); ("ValueTime:", "ValueTime-");
   ("UTC:", "UTC-"); ("RequestTimeMinutesParity:", "RequestTimeMinutesParity-"); ("ContextType:", "ContextType-");
   ("Size: 0" ++ eol, "Size- 0" ++ eol); ("Duration: 0" ++ eol, "Duration- 0" ++ eol); ("ResponseCode: 0" ++ eol, "ResponseCode- 0" ++ eol);
   ("0001-01-01T00:00:00Z" ++ eol, eol); ("IpFlag: false" ++ eol, "IpFlag- false" ++ eol); ("NetIp: ", "NetIp- ");
   ("AttributeIsSenderLabel: ", "AttributeIsSenderLabel- "); ("AttributeIsReceiverLabel: ", "AttributeIsReceiverLabel- ");
   ("ValueIsReceiverLabel: ", "ValueIsReceiverLabel- "); ("SourceLabels: ", "SourceLabels- ");
   ("DestinationLabels: ", "DestinationLabels- "); ("Regex: ", "Regex- ")].
Definition cleaned (s : string) : string := fold_left (fun s p => replace_all s (fst p) (snd p)) cleaning s.

(** the lines of a text *)
Fixpoint text_lines (s : string) : list string :=
  match s with
  | EmptyString => [""]
  | String c r =>
    if Ascii.eqb c "010" then "" :: text_lines r
    else match text_lines r with
         | l :: ls => String c l :: ls
         | [] => [String c ""]    (* unreachable *)
         end
  end.

(** \S of regexp: not one of \t \n \f \r and space *)
Definition re_space (c : ascii) : bool :=
  let n := nat_of_ascii c in (n =? 32)%nat || (n =? 9)%nat || (n =? 10)%nat || (n =? 12)%nat || (n =? 13)%nat.
Fixpoint word_run (s : string) : string :=
  match s with
  | String c r => if re_space c then "" else String c (word_run r)
  | EmptyString => ""
  end.
(** the match of (?m)^.*[:][ ]\S+ in one line (tools.go:64): up to the end of the word after the last ": " before a word *)
Fixpoint field_match (line : string) : option string :=
  match line with
  | EmptyString => None
  | String c r =>
    match field_match r with
    | Some s => Some (String c s)
    | None =>
      match r with
      | String d (String e r') =>
        if Ascii.eqb c ":" && Ascii.eqb d " " && negb (re_space e) then Some (String c (String d (word_run (String e r')))) else None
      | _ => None
      end
    end
  end.
(** re.FindAllString(s, -1) (tools.go:69-70) *)
Definition field_matches (s : string) : list string :=
  flat_map (fun l => match field_match l with Some x => [x] | None => [] end) (text_lines s).

(** the number of matches of [[:alnum:]][:][[:alnum:]] (tools.go:75-80, 84-89) *)
Definition alnum (c : ascii) : bool :=
  let n := nat_of_ascii c in
  ((48 <=? n) && (n <=? 57) || (65 <=? n) && (n <=? 90) || (97 <=? n) && (n <=? 122))%nat.
Fixpoint pairs (s : string) : nat :=
  match s with
  | String a ((String c (String b r)) as s') =>
    if alnum a && Ascii.eqb c ":" && alnum b then S (pairs r) else pairs s'
  | _ => 0%nat
  end.

(** tools.go:32-101 compareJsonAndYaml, without the returned text *)
Definition compare_json_yaml (json yaml : string) : bool :=
  let ms := field_matches yaml in
  let labels w := list_sum (map (fun s => if contains s w then pairs s else 0%nat) ms) in
  (List.length ms + labels "sender_label" + labels "receiver_label" =? List.length (field_matches (cleaned json)))%nat.

(** messages_load.go:14-35 YamlReadMessageAttributes; [decoded] is the result of yaml.Unmarshal (16) *)
Definition yaml_read_message (L : Lib) (decoded : option message) (yaml : string) : res message :=
  match decoded with
  | None => Err
  | Some m =>
    match message_json L m with
    | None => Err
    | Some json => if compare_json_yaml json yaml then Ok (add_resource_type m) else Err
    end
  end.
