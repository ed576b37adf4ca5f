(** Evaluation on raw bytes with shared memory: check.go:968-1123, conditions_tree.go:329-361, 528-547.
    In Eval.v byte slices are values.  Here they are parts of arrays that may overlap: jsonslice.Get may
    return a part of the data it is given, and append writes in place while the capacity allows. *)
From Coq Require Import List String Ascii Bool Arith ZArith.
From Verif Require Import Base GoStr GoFloat Types Json StrUtils Validate Eval.
Import ListNotations.
Open Scope string_scope.

(** a Go slice of bytes: number of the array, offset, length; its capacity reaches to the end of the array *)
Record slice := mkSlice { sl_arr : nat; sl_off : nat; sl_len : nat }.
(** the arrays by number *)
Definition heap := list string.
Definition array (h : heap) (i : nat) : string := nth i h "".
Definition content (h : heap) (s : slice) : string := take (sl_len s) (drop (sl_off s) (array h (sl_arr s))).
Fixpoint set_array (h : heap) (i : nat) (a : string) : heap :=
  match h, i with
  | [], _ => []
  | _ :: h', 0 => a :: h'
  | b :: h', S i' => b :: set_array h' i' a
  end.
Definition overwrite (a : string) (i : nat) (x : string) : string := take i a ++ x ++ drop (i + String.length x) a.

(** where a library function leaves its result: within the data it was given, or in a new array *)
Inductive place := Within (off len : nat) | New (s : string).

(** the libraries as far as memory is concerned: the place of a result of jsonslice.Get ([None] = error), and the
    unused bytes at the end of a new array *)
Record memory := mkMemory { get_place : string -> string -> option place; spare : string -> string }.

(** the state of an evaluation; the byte fields of [s_msg] are not used, [s_doc] and [s_rel] stand for them *)
Record mst := mkMst { s_msg : message; s_tick : nat; s_heap : heap; s_doc : option slice; s_rel : option slice }.
Definition with_bytes (m : message) (doc rel : option string) : message :=
  mkMessage (m_source_ip m) (m_source_namespace m) (m_source_cluster m) (m_dest_ip m) (m_dest_port m)
   (m_dest_namespace m) (m_dest_cluster m) (m_path m) (m_host m) (m_method m) (m_size m) (m_time m)
   (m_useragent m) (m_protocol m) (m_id m) (m_source_service m) (m_dest_service m)
   (m_source_labels_json m) (m_dest_labels_json m) (m_context_type m) (m_enc_type m) (m_enc_version m)
   doc rel (m_raw m) (m_raw_rel m) (m_domain m) (m_t_sec m) (m_t_min m) (m_t_hours m)
   (m_source_netip m) (m_dest_netip m) (m_source_labels m) (m_dest_labels m).
(** the state with the bytes that are in memory now *)
Definition view (st : mst) : est :=
  mkEst (with_bytes (s_msg st) (option_map (content (s_heap st)) (s_doc st)) (option_map (content (s_heap st)) (s_rel st)))
        (s_tick st).

Definition MM (A : Type) := mst -> option A * mst.
Definition sret {A} (a : A) : MM A := fun st => (Some a, st).
Definition spanic {A} : MM A := fun st => (None, st).
Definition sbind {A B} (x : MM A) (f : A -> MM B) : MM B :=
  fun st => match x st with
            | (Some a, st') => f a st'
            | (None, st') => (None, st')
            end.
Notation "'sdo' x <- e ; k" := (sbind e (fun x => k))
  (at level 200, x pattern, e at level 100, k at level 200, right associativity).
(** a step that does not touch the memory *)
Definition lift {A} (x : M A) : MM A :=
  fun st => let '(o, s) := x (view st) in
            (o, mkMst (e_msg s) (e_tick s) (s_heap st) (s_doc st) (s_rel st)).
Definition sstate : MM mst := fun st => (Some st, st).
Definition set_heap (h : heap) : MM unit := fun st => (Some tt, mkMst (s_msg st) (s_tick st) h (s_doc st) (s_rel st)).
Definition set_rel (r : option slice) : MM unit := fun st => (Some tt, mkMst (s_msg st) (s_tick st) (s_heap st) (s_doc st) r).

Section WithLib.
Variable L : Lib.
Variable ord : order.
Variable G : memory.
Notation node := (node L).

(** a new array *)
Definition alloc (x : string) : MM slice :=
  sdo st <- sstate;
  sdo _ <- set_heap (s_heap st ++ [(x ++ spare G x)%string])%list;
  sret (mkSlice (List.length (s_heap st)) 0 (String.length x)).
Fixpoint allocs (xs : list string) : MM (list slice) :=
  match xs with
  | [] => sret []
  | x :: xs' => sdo s <- alloc x; sdo ss <- allocs xs'; sret (s :: ss)
  end.
(** append(s, x...): in place if the capacity suffices, otherwise into a new array *)
Definition append_to (s : slice) (x : string) : MM slice :=
  sdo st <- sstate;
  let a := array (s_heap st) (sl_arr s) in
  if (sl_off s + sl_len s + String.length x <=? String.length a)%nat then
    sdo _ <- set_heap (set_array (s_heap st) (sl_arr s) (overwrite a (sl_off s + sl_len s) x));
    sret (mkSlice (sl_arr s) (sl_off s) (sl_len s + String.length x))
  else alloc (content (s_heap st) s ++ x).
(** jsonslice.Get *)
Definition get_slice (src : slice) (path : string) : MM (option slice) :=
  sdo st <- sstate;
  match get_place G (content (s_heap st) src) path with
  | None => sret None
  | Some (Within off len) => sret (Some (mkSlice (sl_arr src) (sl_off src + off) len))
  | Some (New x) => sdo s <- alloc x; sret (Some s)
  end.

(** check.go:975-996; [acc] is arrayData, [None] the initial empty slice *)
Fixpoint gather_slices (ps : list string) (acc : option slice) (failed : bool) : MM (option slice * bool) :=
  match ps with
  | [] => sret (acc, failed)
  | p :: ps' =>
    sdo st <- sstate;
    let '(doc, path) := if relative_parent p then (s_rel st, bytes_parent p) else (s_doc st, p) in
    match doc with
    | None => spanic
    | Some d =>
      sdo r <- get_slice d path;
      match r with
      | None => gather_slices ps' acc true
      | Some t =>
        match acc with
        | None | Some (mkSlice _ _ 0) => gather_slices ps' (Some t) false
        | Some a =>
          if (sl_len t =? 0)%nat then gather_slices ps' (Some a) false
          else sdo a1 <- append_to a ",";
               sdo st1 <- sstate;
               sdo a2 <- append_to a1 (content (s_heap st1) t);
               gather_slices ps' (Some a2) false
        end
      end
    end
  end.

(** check.go:1050-1070 with the slices cut out of array [arr] from [base] on *)
Fixpoint split_slices_from (arr base : nat) (rest : string) (i : nat) (c : Z) (start : option nat) : list slice :=
  match rest with
  | EmptyString => []
  | String ch rest' =>
    let '(c, start) := if Ascii.eqb ch "{" then ((c + 1)%Z, if (c =? 0)%Z then Some i else start)
                       else (c, start) in
    let c := if Ascii.eqb ch "}" then (c - 1)%Z else c in
    match (c =? 0)%Z, start with
    | true, Some st => mkSlice arr (base + st) (i + 1 - st) :: split_slices_from arr base rest' (S i) c None
    | _, _ => split_slices_from arr base rest' (S i) c start
    end
  end.

(** check.go:968-1018 getArrayOfJsons; [None] = error.  pretty.Ugly and the conversions between strings and
    byte slices (check.go:1108-1122) and json.Marshal (1085) give new arrays. *)
Definition element_slices (a : aanode L) : MM (option (list slice)) :=
  sdo (acc, failed) <- gather_slices (a_parents a) None true;
  if failed then sret None else
  sdo st <- sstate;
  let data := match acc with Some s => content (s_heap st) s | None => "" end in
  sdo d <- lift (mopt (unnest L data));
  match d with
  | None => sret None
  | Some d =>
    sdo s <- (if (String.length data <? 2)%nat then
                sret (match acc with Some s => s | None => mkSlice 0 0 0 end)
              else alloc d);
    match d with
    | EmptyString => sret (Some [])
    | String ch _ =>
      if Ascii.eqb ch "{" then
        sdo r <- lift (objects_of_map L ord d);
        match r with
        | None => sret None
        | Some xs => sdo ss <- allocs xs; sret (Some ss)
        end
      else sret (Some (split_slices_from (sl_arr s) (sl_off s) d 0 0%Z None))
    end
  end.

(** conditions_tree.go:125-137 (And).Eval *)
Fixpoint sand_loop (es : list (MM (bool * extra))) (acc : extra) : MM (bool * extra) :=
  match es with
  | [] => sret (true, acc)
  | e :: es' =>
    sdo (flag, x) <- e;
    let acc := match x with [] => acc | _ => x end in
    if flag then sand_loop es' acc else sret (false, acc)
  end.
(** conditions_tree.go:186-202 (Or).Eval *)
Fixpoint sor_loop (es : list (MM (bool * extra))) (out : bool) (acc : extra) : MM (bool * extra) :=
  match es with
  | [] => sret (out, acc)
  | e :: es' =>
    sdo (flag, x) <- e;
    sor_loop es' (out || flag) (if flag then acc ++ x else acc)%list
  end.
(** conditions_tree.go:311-327, 346-361 *)
Fixpoint sany_loop {V} (set : V -> MM unit) (getx : option (MM (list (string * iface)))) (all_values : bool)
    (inner : MM (bool * extra)) (vals : list V) (result : bool) (acc : extra) : MM (bool * extra) :=
  match vals with
  | [] => sret (result, acc)
  | v :: vals' =>
    sdo _ <- set v;
    sdo (flag, _) <- inner;
    if flag then
      sdo acc <- (match getx with
                  | Some g => sdo x <- g; sret (acc ++ [x])%list
                  | None => sret acc
                  end);
      if all_values then sany_loop set getx all_values inner vals' true acc
      else sret (true, acc)
    else sany_loop set getx all_values inner vals' result acc
  end.
(** conditions_tree.go:518-527, 540-548 *)
Fixpoint sall_loop {V} (set : V -> MM unit) (inner : MM (bool * extra)) (vals : list V) : MM (bool * extra) :=
  match vals with
  | [] => sret (true, [])
  | v :: vals' =>
    sdo _ <- set v;
    sdo (flag, _) <- inner;
    if flag then sall_loop set inner vals' else sret (false, [])
  end.
Definition squant_loop {V} (q : quant) (a : aanode L) (set : V -> MM unit)
    (getx : MM (list (string * iface))) (inner : MM (bool * extra)) (vals : list V) : MM (bool * extra) :=
  match q with
  | QAny =>
    sany_loop set (match r_paths (a_ret a) with Some _ => Some getx | None => None end)
      (match r_paths (a_ret a) with Some (_ :: _) => true | _ => false end) inner vals false []
  | QAll => sall_loop set inner vals
  end.

(** conditions_tree.go:291-333 (Any), 502-535 (All) *)
Definition squant_iface (q : quant) (a : aanode L) (inner : MM (bool * extra)) : MM (bool * extra) :=
  sdo vals <- lift (elements_iface L ord a);
  sdo m <- lift mmsg;
  sdo r <- squant_loop q a (fun v => lift (set_raw_relative (Some v)))
             (lift (mdo m <- mmsg; mopt (extra_iface L (a_ret a) m))) inner vals;
  sdo _ <- lift (set_raw_relative (m_raw_rel m));
  sret r.
(** conditions_tree.go:334-361 (Any), 536-553 (All) *)
Definition squant_bytes (q : quant) (a : aanode L) (inner : MM (bool * extra)) : MM (bool * extra) :=
  sdo vals <- element_slices a;
  match vals with
  | None => sret (false, [])
  | Some vals =>
    sdo st <- sstate;
    sdo r <- squant_loop q a (fun v => set_rel (Some v))
               (lift (mdo m <- mmsg; mopt (extra_bytes L (a_ret a) m))) inner vals;
    sdo _ <- set_rel (s_rel st);
    sret r
  end.

(** Eval: conditions_tree.go:125-137, 186-202, 226-229, 291-297, 502-508, 629-631, 649-651, 667-669 *)
Fixpoint seval (n : node) : MM (bool * extra) :=
  match n with
  | NAnd ns => sand_loop (map seval ns) []
  | NOr ns => sor_loop (map seval ns) false []
  | NNot n' => sdo (flag, _) <- seval n'; sret (negb flag, [])
  | NQuant q a n' =>
    sdo m <- lift mmsg;
    match m_raw m, a_prep a with
    | Some _, _ :: _ => squant_iface q a (seval n')
    | _, _ => squant_bytes q a (seval n')
    end
  | NTrue => sret (true, [])
  | NFalse => sret (false, [])
  | NCond c => lift (test_condition L ord c)
  | NNil => spanic
  end.

End WithLib.
