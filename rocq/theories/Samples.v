(** Concrete rules, trees and messages over the reference library, for examples and refutations. *)
From Coq Require Import List String Ascii Bool Arith ZArith.
From Verif Require Import Base GoStr GoFloat Types Json StrUtils Validate Prepare Parse Marshal Lifecycle Eval Check RefLib.
Import ListNotations.
Open Scope string_scope.

(** texts are written with single quotes instead of double quotes *)
Definition quotes (s : string) : string := replace_all s sqs dqs.

(** a tree loaded from JSON text *)
Definition load_tree (s : string) : option (node RefLib) :=
  match unmarshal_json_tree RefLib in_order (quotes s) 0 with
  | (Ok (Some n), _) => Some n
  | _ => None
  end.
(** and prepared without predefined strings *)
Definition prepared_tree (s : string) : option (node RefLib) :=
  match load_tree s with
  | Some n => match prepare_node RefLib empty_predef n with Ok n' => Some n' | _ => None end
  | None => None
  end.

Definition msg0 : message :=
  mkMessage "10.1.2.3" "" "" "10.9.9.9" "80" "" "" "/a/b" "example.com" "GET" 100 "" "curl/7" "HTTP" "id1"
    "front.end" "back.end" "" "" "path" "" None None None None None "" f_zero f_zero f_zero
    [10; 1; 2; 3]%Z [10; 9; 9; 9]%Z [] [].

Definition set_raw (m : message) (r : option iface) : message :=
  mkMessage (m_source_ip m) (m_source_namespace m) (m_source_cluster m) (m_dest_ip m) (m_dest_port m)
   (m_dest_namespace m) (m_dest_cluster m) (m_path m) (m_host m) (m_method m) (m_size m) (m_time m)
   (m_useragent m) (m_protocol m) (m_id m) (m_source_service m) (m_dest_service m)
   (m_source_labels_json m) (m_dest_labels_json m) (m_context_type m) (m_enc_type m) (m_enc_version m)
   (m_json m) (m_json_rel m) r (m_raw_rel m) (m_domain m) (m_t_sec m) (m_t_min m) (m_t_hours m)
   (m_source_netip m) (m_dest_netip m) (m_source_labels m) (m_dest_labels m).
Definition set_json (m : message) (r : option string) : message :=
  mkMessage (m_source_ip m) (m_source_namespace m) (m_source_cluster m) (m_dest_ip m) (m_dest_port m)
   (m_dest_namespace m) (m_dest_cluster m) (m_path m) (m_host m) (m_method m) (m_size m) (m_time m)
   (m_useragent m) (m_protocol m) (m_id m) (m_source_service m) (m_dest_service m)
   (m_source_labels_json m) (m_dest_labels_json m) (m_context_type m) (m_enc_type m) (m_enc_version m)
   r (m_json_rel m) (m_raw m) (m_raw_rel m) (m_domain m) (m_t_sec m) (m_t_min m) (m_t_hours m)
   (m_source_netip m) (m_dest_netip m) (m_source_labels m) (m_dest_labels m).

(** messages carrying a document *)
Definition parsed_msg (s : string) : message := set_raw msg0 (json_parse RefLib (quotes s)).
Definition bytes_msg (s : string) : message := set_json msg0 (Some (quotes s)).

(** truth value of a tree on a message; [None]: not loadable or panic *)
Definition run_tree (ord : order) (tree : string) (m : message) : option (bool * extra) :=
  match prepared_tree tree with
  | Some n => fst (eval RefLib ord n (mkEst m 0))
  | None => None
  end.
Definition run_flag (ord : order) (tree : string) (m : message) : option bool :=
  option_map fst (run_tree ord tree m).

(** a rule with the given sender, receiver, protocol, resource, operation, tree and decision *)
Definition sample_rule (sn st rn rt proto rty rname op : string) (t : option (node RefLib)) (d : string)
  : rule RefLib :=
  mkRule "r" sn st [] rn rt [] proto rty rname None op t d [("description", "about " ++ d)] "" None false.
Definition sample (sn st rn rt proto rty rname op : string) (t : option (node RefLib)) (d : string)
  : rstate RefLib :=
  load_rule RefLib (sample_rule sn st rn rt proto rty rname op t d).
Definition any_rule (d : string) : rstate RefLib :=
  sample "*" "workload" "*" "workload" "*" "*" "*" "*" None d.

Definition the {A} (d : A) (o : option A) : A := match o with Some a => a | None => d end.
