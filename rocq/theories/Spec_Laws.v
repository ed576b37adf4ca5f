(** Laws of logic for conditions trees: which trees may be exchanged. *)
From Coq Require Import List String Ascii Bool Permutation.
From Verif Require Import Base Types Prepare Spec_Tree Spec_Leaf Load_proofs Spec_Meaning.
Import ListNotations.
Open Scope string_scope.

Section WithLib.
Variable L : Lib.
Variable p : predef.

(** the tree has the shape of a loaded one ([made], Load_proofs) and can be prepared *)
Definition usable (n : node L) : Prop := made L n /\ exists n', prepare_node L p n = Ok n'.

(** EX and NEX of the same path, unless the value has a quotation mark at one end only *)
Record opposite (m : message) (c c' : cond L) : Prop := {
  op_attr : c_attr c' = c_attr c;
  op_ex : method_is (c_method c) KEx;
  op_nex : method_is (c_method c') KNex;
  op_usable : usable (NCond c) /\ usable (NCond c');
  op_covered : covered L p (NCond c) m /\ covered L p (NCond c') m;
  op_value : exists v, replaced p (c_method c) (c_value c) v /\ plain_value v;
  op_value' : exists v, replaced p (c_method c') (c_value c') v /\ plain_value v;
  op_shows : exists s, shows L (c_attr c) m s /\ s <> Misaligned
}.

(** [exchangeable m n n']: for the message [m] the tree [n] may be replaced by [n'] *)
Inductive exchangeable : message -> node L -> node L -> Prop :=
| xc_refl m n : exchangeable m n n
| xc_sym m n n' : exchangeable m n n' -> exchangeable m n' n
| xc_trans m n1 n2 n3 : exchangeable m n1 n2 -> exchangeable m n2 n3 -> exchangeable m n1 n3
(* inside of trees *)
| xc_and m ns n n' ns' : exchangeable m n n' -> exchangeable m (NAnd (ns ++ n :: ns')) (NAnd (ns ++ n' :: ns'))
| xc_or m ns n n' ns' : exchangeable m n n' -> exchangeable m (NOr (ns ++ n :: ns')) (NOr (ns ++ n' :: ns'))
| xc_not m n n' : exchangeable m n n' -> exchangeable m (NNot n) (NNot n')
| xc_quant m q a n n' : (usable n <-> usable n') -> (forall ms m', ranges_over L a m (Some ms) -> In m' ms -> exchangeable m' n n') ->
    exchangeable m (NQuant q a n) (NQuant q a n')
(* negation *)
| xc_twice m n : exchangeable m (NNot (NNot n)) n
| xc_not_and m ns : exchangeable m (NNot (NAnd ns)) (NOr (map NNot ns))
| xc_not_or m ns : exchangeable m (NNot (NOr ns)) (NAnd (map NNot ns))
(* order, nesting, repetition *)
| xc_and_order m ns ns' : Permutation ns ns' -> exchangeable m (NAnd ns) (NAnd ns')
| xc_or_order m ns ns' : Permutation ns ns' -> exchangeable m (NOr ns) (NOr ns')
| xc_and_flat m ns ns1 ns2 : exchangeable m (NAnd (ns ++ NAnd ns1 :: ns2)) (NAnd (ns ++ ns1 ++ ns2))
| xc_or_flat m ns ns1 ns2 : exchangeable m (NOr (ns ++ NOr ns1 :: ns2)) (NOr (ns ++ ns1 ++ ns2))
| xc_and_one m n : exchangeable m (NAnd [n]) n
| xc_or_one m n : exchangeable m (NOr [n]) n
| xc_and_again m n ns : exchangeable m (NAnd (n :: n :: ns)) (NAnd (n :: ns))
| xc_or_again m n ns : exchangeable m (NOr (n :: n :: ns)) (NOr (n :: ns))
(* distribution *)
| xc_and_or m n ns : ns <> [] -> exchangeable m (NAnd [n; NOr ns]) (NOr (map (fun x => NAnd [n; x]) ns))
| xc_or_and m n ns : ns <> [] -> exchangeable m (NOr [n; NAnd ns]) (NAnd (map (fun x => NOr [n; x]) ns))
| xc_any_or m a ns : ns <> [] -> exchangeable m (NQuant QAny a (NOr ns)) (NOr (map (NQuant QAny a) ns))
| xc_all_and m a ns : ns <> [] -> exchangeable m (NQuant QAll a (NAnd ns)) (NAnd (map (NQuant QAll a) ns))
(* on parsed documents *)
| xc_not_all m a n : m_raw m <> None -> exchangeable m (NNot (NQuant QAll a n)) (NQuant QAny a (NNot n))
| xc_exists m c c' : opposite m c c' -> exchangeable m (NNot (NCond c)) (NCond c').

(** rules that differ in their conditions only, which are exchangeable *)
Inductive exchanged_rules (m : message) : rule L -> rule L -> Prop :=
| xr_same r : exchanged_rules m r r
| xr_tree id sn st sl rn rt rl pr ty rs rx op n n' de me ha ox co : exchangeable m n n' ->
    exchanged_rules m (mkRule id sn st sl rn rt rl pr ty rs rx op (Some n) de me ha ox co) (mkRule id sn st sl rn rt rl pr ty rs rx op (Some n') de me ha ox co).
End WithLib.
