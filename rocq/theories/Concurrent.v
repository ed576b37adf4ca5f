(** Interleaved evaluations: the functions of Eval.v and Check.v cut into atomic actions on a
    message object, and pools of such evaluations over a memory of message objects. *)
From Coq Require Import List String Ascii Bool Arith ZArith.
From Verif Require Import Base GoStr GoFloat Types Json StrUtils Validate Prepare Parse Marshal Lifecycle Eval Check.
Import ListNotations.
Open Scope string_scope.

(** A program: finished, panicked, or an action on the message followed by the rest.  An action also
    numbers its map iterations; [None] is a panic. *)
Inductive prog (A : Type) : Type :=
| Done (a : A)
| Crashed
| Act (f : est -> option (prog A) * est).
Arguments Done {A}.
Arguments Crashed {A}.
Arguments Act {A}.

Definition atom {A} (x : M A) : prog A :=
  Act (fun e => match x e with
                | (Some a, e') => (Some (Done a), e')
                | (None, e') => (None, e')
                end).
Fixpoint pthen {A B} (p : prog A) (k : A -> prog B) : prog B :=
  match p with
  | Done a => k a
  | Crashed => Crashed
  | Act f => Act (fun e => match f e with
                           | (Some p', e') => (Some (pthen p' k), e')
                           | (None, e') => (None, e')
                           end)
  end.
Notation "'cdo' x <- e ; k" := (pthen e (fun x => k))
  (at level 200, x pattern, e at level 100, k at level 200, right associativity).

(** the program run without interruption *)
Fixpoint alone {A} (p : prog A) : M A :=
  match p with
  | Done a => mret a
  | Crashed => mpanic
  | Act f => fun e => match f e with
                      | (Some p', e') => alone p' e'
                      | (None, e') => (None, e')
                      end
  end.

Section WithLib.
Variable L : Lib.
Variable ord : order.
Notation node := (node L).

(** conditions_tree.go:125-137 *)
Fixpoint and_steps (es : list (prog (bool * extra))) (acc : extra) : prog (bool * extra) :=
  match es with
  | [] => Done (true, acc)
  | e :: es' =>
    cdo (flag, x) <- e;
    let acc := match x with [] => acc | _ => x end in
    if flag then and_steps es' acc else Done (false, acc)
  end.
(** conditions_tree.go:186-202 *)
Fixpoint or_steps (es : list (prog (bool * extra))) (out : bool) (acc : extra) : prog (bool * extra) :=
  match es with
  | [] => Done (out, acc)
  | e :: es' =>
    cdo (flag, x) <- e;
    or_steps es' (out || flag) (if flag then acc ++ x else acc)%list
  end.
(** conditions_tree.go:309-326, 351-367: the write of the relative field (309, 344) and the reads for the
    return values are actions of their own *)
Fixpoint any_steps {V} (set : V -> M unit) (getx : option (M (list (string * iface)))) (all_values : bool)
    (inner : prog (bool * extra)) (vals : list V) (result : bool) (acc : extra) : prog (bool * extra) :=
  match vals with
  | [] => Done (result, acc)
  | v :: vals' =>
    cdo _ <- atom (set v);
    cdo (flag, _) <- inner;
    if flag then
      cdo acc <- (match getx with
                  | Some g => cdo x <- atom g; Done (acc ++ [x])%list
                  | None => Done acc
                  end);
      if all_values then any_steps set getx all_values inner vals' true acc
      else Done (true, acc)
    else any_steps set getx all_values inner vals' result acc
  end.
(** conditions_tree.go:518-527, 535-544 *)
Fixpoint all_steps {V} (set : V -> M unit) (inner : prog (bool * extra)) (vals : list V) : prog (bool * extra) :=
  match vals with
  | [] => Done (true, [])
  | v :: vals' =>
    cdo _ <- atom (set v);
    cdo (flag, _) <- inner;
    if flag then all_steps set inner vals' else Done (false, [])
  end.
Definition quant_steps {V} (q : quant) (a : aanode L) (set : V -> M unit)
    (getx : M (list (string * iface))) (inner : prog (bool * extra)) (vals : list V) : prog (bool * extra) :=
  match q with
  | QAny =>
    any_steps set (match r_paths (a_ret a) with Some _ => Some getx | None => None end)
      (match r_paths (a_ret a) with Some (_ :: _) => true | _ => false end) inner vals false []
  | QAll => all_steps set inner vals
  end.
(** conditions_tree.go:294-330, 502-531: the elements, the saved field, the loop, the restored field *)
Definition quant_iface_steps (q : quant) (a : aanode L) (inner : prog (bool * extra)) : prog (bool * extra) :=
  cdo vals <- atom (elements_iface L ord a);
  cdo m <- atom mmsg;
  cdo r <- quant_steps q a (fun v => set_raw_relative (Some v))
             (mdo m <- mmsg; mopt (extra_iface L (a_ret a) m)) inner vals;
  cdo _ <- atom (set_raw_relative (m_raw_rel m));
  Done r.
(** conditions_tree.go:331-361, 532-546 *)
Definition quant_bytes_steps (q : quant) (a : aanode L) (inner : prog (bool * extra)) : prog (bool * extra) :=
  cdo vals <- atom (elements_bytes L ord a);
  match vals with
  | None => Done (false, [])
  | Some vals =>
    cdo m <- atom mmsg;
    cdo r <- quant_steps q a (fun v => set_json_relative (Some v))
               (mdo m <- mmsg; mopt (extra_bytes L (a_ret a) m)) inner vals;
    cdo _ <- atom (set_json_relative (m_json_rel m));
    Done r
  end.
(** Eval.  Simplification: one condition is one action (it reads the message and writes nothing). *)
Fixpoint eval_steps (n : node) : prog (bool * extra) :=
  match n with
  | NAnd ns => and_steps (map eval_steps ns) []
  | NOr ns => or_steps (map eval_steps ns) false []
  | NNot n' => cdo (flag, _) <- eval_steps n'; Done (negb flag, [])
  | NQuant q a n' =>
    cdo m <- atom mmsg;
    match m_raw m, a_prep a with
    | Some _, _ :: _ => quant_iface_steps q a (eval_steps n')
    | _, _ => quant_bytes_steps q a (eval_steps n')
    end
  | NTrue => Done (true, [])
  | NFalse => Done (false, [])
  | NCond c => atom (test_condition L ord c)
  | NNil => Crashed
  end.

(** check.go:110-150: the tests before the conditions, as one action *)
Definition rule_head (r : rule L) : M bool :=
  mdo m <- mmsg;
  mdo b <- mopt (test_sender L r m);
  if negb b then mret false else
  mdo b <- mopt (test_receiver L r m);
  if negb b then mret false else
  mdo b <- mopt (match_regex L (ru_operation_regex r) (m_method m));
  if negb b then mret false else
  mopt (test_resource L r m).
(** check.go:110-172 *)
Definition check_prepared_steps (r : rule L) : prog (nat * extra) :=
  cdo b <- atom (rule_head r);
  if negb b then Done (DEFAULT, []) else
  cdo (b, x) <- (match ru_tree r with
                 | None => Done (true, [])
                 | Some t => eval_steps t
                 end);
  if negb b then Done (DEFAULT, []) else
  let d := decision_of (ru_decision r) in
  if Nat.eqb d DEFAULT then Done (DEFAULT, []) else Done (d, x).
(** check.go:101-172 *)
Definition check_one_rule_steps (g : predef) (s : rstate L) : prog ((nat * extra) * rstate L) :=
  cdo s <- atom (ensure_prepared L ord g s);
  match rs_prepared s with
  | None => Crashed
  | Some r => cdo x <- check_prepared_steps r; Done (x, s)
  end.
(** check.go:66-74 *)
Fixpoint run_rules_steps (g : predef) (rules : list (rstate L)) : prog (list (nat * extra)) :=
  match rules with
  | [] => Done []
  | s :: rules' =>
    cdo (x, _) <- check_one_rule_steps g s;
    cdo xs <- run_rules_steps g rules';
    Done (x :: xs)
  end.
(** check.go:34-98 *)
Definition check_steps (g : predef) (rules : list (rstate L)) : prog outcome :=
  cdo xs <- run_rules_steps g rules;
  Done (summarise L rules xs).
End WithLib.

(** ** Pools *)
(** a goroutine: the address of its message, the number of its map iterations, what is left to run *)
Record thread (A : Type) := mkThread { th_addr : nat; th_tick : nat; th_prog : prog A }.
Arguments mkThread {A}.
Arguments th_addr {A}.
Arguments th_tick {A}.
Arguments th_prog {A}.
(** the message objects in memory and the goroutines *)
Record pool (A : Type) := mkPool { p_heap : nat -> message; p_threads : list (thread A) }.
Arguments mkPool {A}.
Arguments p_heap {A}.
Arguments p_threads {A}.

Definition write (h : nat -> message) (a : nat) (m : message) : nat -> message :=
  fun b => if Nat.eqb a b then m else h b.
Fixpoint put {A} (i : nat) (x : A) (l : list A) : list A :=
  match l, i with
  | [], _ => []
  | _ :: l', 0 => x :: l'
  | y :: l', S i' => y :: put i' x l'
  end.
(** goroutine [i] performs its next action, if it has one *)
Definition advance {A} (i : nat) (p : pool A) : pool A :=
  match nth_error (p_threads p) i with
  | Some (mkThread a t (Act f)) =>
    match f (mkEst (p_heap p a) t) with
    | (r, e) => mkPool (write (p_heap p) a (e_msg e))
                  (put i (mkThread a (e_tick e) (match r with Some q => q | None => Crashed end)) (p_threads p))
    end
  | _ => p
  end.
(** the goroutines advance in the order of the schedule *)
Definition interleave {A} (schedule : list nat) (p : pool A) : pool A :=
  fold_left (fun p i => advance i p) schedule p.
