(** The decision: check.go:17-263, coverage.go *)
From Coq Require Import List String Ascii Bool Arith ZArith.
From Verif Require Import Base GoStr GoFloat Types Json StrUtils Validate Prepare Parse Marshal Lifecycle Eval.
Import ListNotations.
Open Scope string_scope.

(** check.go:17-24 *)
Definition DEFAULT : nat := 0.
Definition ALLOW : nat := 1.
Definition ALERT : nat := 2.
Definition BLOCK : nat := 3.
(** check.go:26-32 *)
Definition decision_names : list string :=
  ["rules do not apply to message - block by default"; "allow"; "alert"; "block"; "none"].

Section WithLib.
Variable L : Lib.
Variable ord : order.
Notation rule := (rule L).
Notation rstate := (rstate L).
Notation expanded := (expanded L).

(** Regexp.Match on a pointer that may be nil *)
Definition match_regex (r : option (RE L)) (s : string) : option bool :=
  match r with Some x => Some (re_match L x s) | None => None end.

(** check.go:188-193, 221-226: address test of one entry *)
Definition match_subnet (x : expanded) (addr : string) (netip : ip) : bool :=
  let b := if x_is_ip x then String.eqb (x_name x) addr else false in
  if x_is_cidr x then ip_contains (x_cidr x) netip else b.

(** check.go:178-208 TestSender.  The conversion at 180-182 is dead: the engine passes the prepared
    rule, whose fields are converted. *)
Fixpoint test_sender_list (xs : list expanded) (m : message) : option bool :=
  match xs with
  | [] => Some false
  | x :: xs' =>
    let r := if String.eqb (x_type x) "subnet"
             then Some (Some (match_subnet x (m_source_ip m) (m_source_netip m)))
             else if is_any (x_type x) ["*"; "workload"]
             then Some (match_regex (x_regexp x) (m_source_service m))
             else None in
    match r with
    | None => Some false                 (* type not supported *)
    | Some None => None                  (* nil regular expression *)
    | Some (Some true) => Some true
    | Some (Some false) => test_sender_list xs' m
    end
  end.
Definition test_sender (r : rule) (m : message) : option bool := test_sender_list (ru_sender_list r) m.

(** check.go:210-245 TestReceiver *)
Fixpoint test_receiver_list (xs : list expanded) (m : message) : option bool :=
  match xs with
  | [] => Some false
  | x :: xs' =>
    let r := if String.eqb (x_type x) "subnet"
             then Some (Some (match_subnet x (m_dest_ip m) (m_dest_netip m)))
             else if String.eqb (x_type x) "hostname"
             then Some (match_regex (x_regexp x) (m_host m))
             else if is_any (x_type x) ["*"; "workload"]
             then Some (match_regex (x_regexp x) (m_dest_service m))
             else None in
    match r with
    | None => Some false
    | Some None => None
    | Some (Some true) => Some true
    | Some (Some false) => test_receiver_list xs' m
    end
  end.
Definition test_receiver (r : rule) (m : message) : option bool := test_receiver_list (ru_receiver_list r) m.

(** check.go:127-150: protocol and resource *)
Definition test_resource (r : rule) (m : message) : option bool :=
  if String.eqb (ru_protocol r) "tcp" then match_regex (ru_resource_regex r) (m_dest_port m)
  else if String.eqb (ru_protocol r) "*" then Some true
  else if negb (equal_fold (m_protocol m) (ru_protocol r)) then Some false
  else if negb (String.eqb (ru_resource_type r) "*")
          && negb (String.eqb (m_context_type m) (ru_resource_type r)) then Some false
  else match_regex (ru_resource_regex r) (m_path m).

(** check.go:163-171 *)
Definition decision_of (d : string) : nat :=
  if is_any d ["allow"; "ALLOW"; "Allow"] then ALLOW
  else if is_any d ["alert"; "ALERT"; "Alert"] then ALERT
  else if is_any d ["block"; "BLOCK"; "Block"] then BLOCK
  else DEFAULT.

(** check.go:110-172: CheckOneRule after the prepared rule was chosen *)
Definition check_prepared (r : rule) : M (nat * extra) :=
  mdo m <- mmsg;
  mdo b <- mopt (test_sender r m);
  if negb b then mret (DEFAULT, []) else
  mdo b <- mopt (test_receiver r m);
  if negb b then mret (DEFAULT, []) else
  mdo b <- mopt (match_regex (ru_operation_regex r) (m_method m));
  if negb b then mret (DEFAULT, []) else
  mdo b <- mopt (test_resource r m);
  if negb b then mret (DEFAULT, []) else
  mdo (b, x) <- (match ru_tree r with
                 | None => mret (true, [])
                 | Some t => eval L ord t
                 end);
  if negb b then mret (DEFAULT, []) else
  let d := decision_of (ru_decision r) in
  if Nat.eqb d DEFAULT then mret (DEFAULT, []) else mret (d, x).

(** check.go:103-105, 251-253: prepare with the global lists if needed; the error is ignored.
    Simplification: the state of the rule after a panic is not kept. *)
Definition ensure_prepared (g : predef) (s : rstate) : M rstate :=
  fun e => if rs_ready s then (Some s, e) else
    match set_predefined L ord g s (e_tick e) with
    | (Panic, _, t) => (None, mkEst (e_msg e) t)
    | (_, s', t) => (Some s', mkEst (e_msg e) t)
    end.

(** check.go:101-172 CheckOneRule, 174-176 (Rule).Check: result and the rule afterwards.
    TestConditions at 157 prepares again only when the first preparation failed, with the
    same outcome; the model omits the second attempt. *)
Definition check_one_rule (g : predef) (s : rstate) : M ((nat * extra) * rstate) :=
  mdo s <- ensure_prepared g s;
  match rs_prepared s with
  | None => mpanic
  | Some r => mdo x <- check_prepared r; mret (x, s)
  end.

(** check.go:248-263 TestConditions *)
Definition test_conditions (g : predef) (s : rstate) : M ((bool * extra) * rstate) :=
  mdo s <- ensure_prepared g s;
  match rs_prepared s with
  | None => mpanic
  | Some r =>
    match ru_tree r with
    | Some t => mdo x <- eval L ord t; mret (x, s)
    | None => mret ((false, []), s)
    end
  end.

(** check.go:66-74: every rule in order; the loop variable is a copy, so the prepared state is dropped *)
Fixpoint run_rules (g : predef) (rules : list rstate) : M (list (nat * extra)) :=
  match rules with
  | [] => mret []
  | s :: rules' =>
    mdo (x, _) <- check_one_rule g s;
    mdo xs <- run_rules g rules';
    mret (x :: xs)
  end.

(** check.go:68-73 *)
Definition description (s : rstate) : string :=
  match assoc "description" (ru_metadata (rs_rule s)) with Some d => d | None => "" end.

(** check.go:77-92: the scan over the results *)
Record scan := mkScan { s_max : nat; s_desc : string; s_index : Z; s_applied : list nat }.
Fixpoint scan_results (i : nat) (rs : list (nat * string)) (a : scan) : scan :=
  match rs with
  | [] => a
  | (r, d) :: rs' =>
    let a := if (DEFAULT <? r)%nat then mkScan (s_max a) (s_desc a) (s_index a) (s_applied a ++ [i])%list else a in
    let a := if (s_max a <? r)%nat then mkScan r d (Z.of_nat i) (s_applied a) else a in
    scan_results (S i) rs' a
  end.

(** the results of Check, check.go:34 *)
Record outcome := mkOutcome {
  out_decision : nat; out_string : string; out_index : Z; out_results : list nat;
  out_applied : list nat; out_desc : string; out_extra : list extra
}.

(** check.go:76-97 *)
Definition summarise (rules : list rstate) (xs : list (nat * extra)) : outcome :=
  let results := map fst xs in
  let a := scan_results 0 (combine results (map description rules)) (mkScan DEFAULT "" (-1)%Z []) in
  mkOutcome (s_max a) (nth (s_max a) decision_names "") (s_index a) results (s_applied a) (s_desc a) (map snd xs).

(** check.go:34-98 Check *)
Definition check (g : predef) (rules : list rstate) : M outcome :=
  mdo xs <- run_rules g rules;
  mret (summarise rules xs).

(** ** coverage.go *)

(** coverage.go:7-12 MessageCoverage *)
Record msg_coverage := mkCov {
  cov_covered : bool; cov_decision : nat; cov_ids : list string; cov_decisions : list nat
}.

(** coverage.go:64-73 findNonDefaultDecisions, second result *)
Definition non_default (l : list nat) : list nat := filter (fun d => negb (Nat.eqb d DEFAULT)) l.

(** ruleCoverage[id] = append(ruleCoverage[id], x) *)
Definition append_at (k x : string) (m : list (string * list string)) : list (string * list string) :=
  upsert k ((match assoc k m with Some l => l | None => [] end) ++ [x])%list m.

Definition rule_id_at (rules : list rstate) (i : nat) : string :=
  match nth_error rules i with Some s => ru_id (rs_rule s) | None => "" end.

(** coverage.go:31-52: loop over the messages; each message is a copy *)
Fixpoint coverage_loop (g : predef) (rules : list rstate) (ms : list message) (t : nat)
    (mc : list (string * msg_coverage)) (rc : list (string * list string))
  : option (list (string * msg_coverage) * list (string * list string)) :=
  match ms with
  | [] => Some (mc, rc)
  | m :: ms' =>
    match check g rules (mkEst m t) with
    | (None, _) => None
    | (Some o, e) =>
      let ids := map (rule_id_at rules) (out_applied o) in
      let rc := fold_left (fun rc id => append_at id (m_id m) rc) ids rc in
      let c := mkCov (negb (Nat.eqb (out_decision o) DEFAULT)) (out_decision o) ids (non_default (out_results o)) in
      coverage_loop g rules ms' (e_tick e) (upsert (m_id m) c mc) rc
    end
  end.

(** coverage.go:14-62 Coverage *)
Definition coverage (g : predef) (rules : list rstate) (ms : list message) (t : nat)
  : option (list (string * msg_coverage) * list (string * list string)) :=
  coverage_loop g rules ms t []
    (fold_left (fun rc s => upsert (ru_id (rs_rule s)) [] rc) rules []).

End WithLib.
