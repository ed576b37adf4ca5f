(** Derived fields of messages: messages_load.go *)
From Coq Require Import List String Ascii Bool Arith ZArith.
From Verif Require Import Base GoStr GoFloat Types Json.
Import ListNotations.
Open Scope string_scope.

(** the fields assigned in this file, all others kept *)
Definition set_derived (m : message) (context_type : string) (t : f64 * f64 * f64) (ips : ip * ip)
    (labels : list (string * string) * list (string * string)) : message :=
  mkMessage (m_source_ip m) (m_source_namespace m) (m_source_cluster m) (m_dest_ip m) (m_dest_port m)
   (m_dest_namespace m) (m_dest_cluster m) (m_path m) (m_host m) (m_method m) (m_size m) (m_time m)
   (m_useragent m) (m_protocol m) (m_id m) (m_source_service m) (m_dest_service m)
   (m_source_labels_json m) (m_dest_labels_json m) context_type (m_enc_type m) (m_enc_version m)
   (m_json m) (m_json_rel m) (m_raw m) (m_raw_rel m) (m_domain m) (fst (fst t)) (snd (fst t)) (snd t)
   (fst ips) (snd ips) (fst labels) (snd labels).
Definition times (m : message) := (m_t_sec m, m_t_min m, m_t_hours m).
Definition net_ips (m : message) := (m_source_netip m, m_dest_netip m).
Definition all_labels (m : message) := (m_source_labels m, m_dest_labels m).

(** messages_load.go:74-85 AddResourceType *)
Definition add_resource_type (m : message) : message :=
  set_derived m
    (if is_any (m_protocol m) ["HTTP"; "http"] then "path"
     else if is_any (m_protocol m) ["TCP"; "tcp"] then "port" else "")
    (times m) (net_ips m) (all_labels m).

(** messages_load.go:164-172 addQuotesToJsonString *)
Definition add_quotes (s : string) : string :=
  let s := replace_all s " " "" in
  let s := replace_all s "{" ("{" ++ dqs) in
  let s := replace_all s "," (dqs ++ "," ++ dqs) in
  let s := replace_all s ":" (dqs ++ ":" ++ dqs) in
  replace_all s "}" (dqs ++ "}").

Section WithLib.
Variable L : Lib.

(** messages_load.go:111 on the clock reading of line 104 *)
Definition day_nanoseconds (h mi s ns : Z) : Z := (((h * 60 + mi) * 60 + s) * 1000000000 + ns)%Z.
(** messages_load.go:113-115 *)
Definition day_times (n : Z) : f64 * f64 * f64 :=
  let x := fdiv (f64_of_Z n) (f64_of_Z 1000000000) in
  (x, fdiv x (f64_of_Z 60), fdiv (fdiv x (f64_of_Z 60)) (f64_of_Z 60)).

(** messages_load.go:98-118 AddTimeInfoToMessage *)
Definition add_time_info (m : message) : res message :=
  match parse_time L (m_time m) with
  | None => Err
  | Some (h, mi, s, ns) =>
    Ok (set_derived m (m_context_type m) (day_times (day_nanoseconds h mi s ns)) (net_ips m) (all_labels m))
  end.

(** messages_load.go:135-138 AddNetIpToMessage; a text that is no address gives the nil slice *)
Definition net_ip (s : string) : ip := match parse_ip L s with Some i => i | None => [] end.
Definition add_net_ip (m : message) : message :=
  set_derived m (m_context_type m) (times m) (net_ip (m_source_ip m), net_ip (m_dest_ip m)) (all_labels m).

(** json.Unmarshal into a map[string]string, the error ignored (messages_load.go:151, 154): entries are
    added to the map; an entry whose value is not a string becomes "" (so does null); null makes the map nil;
    other values and malformed texts leave it alone.  Simplification: a text with a number out of range is
    malformed. *)
Definition label_text (v : iface) : string := match v with GStr s => s | _ => "" end.
Definition unmarshal_labels (s : string) (labels : list (string * string)) : list (string * string) :=
  match json_parse L s with
  | Some (GMapS m) => fold_left (fun acc kv => upsert (fst kv) (label_text (snd kv)) acc) m labels
  | Some GNil => []
  | _ => labels
  end.

(** messages_load.go:148-156 parseLabelsJsonOfMessage *)
Definition parse_labels (m : message) : message :=
  set_derived m (m_context_type m) (times m) (net_ips m)
    (unmarshal_labels (add_quotes (m_source_labels_json m)) (m_source_labels m),
     unmarshal_labels (add_quotes (m_dest_labels_json m)) (m_dest_labels m)).

(** messages_load.go:47-55: the part of YamlReadMessagesFromString after yaml.Unmarshal
    (with the loops of lines 88-95, 121-132, 141-145, 158-162) *)
Definition complete_messages (ms : list message) : res (list message) :=
  do ms <- rmapM add_time_info (map add_resource_type ms);
  Ok (map parse_labels (map add_net_ip ms)).
End WithLib.
